(** Between the iterations of LazyARA*, its beginning, and the extraction of the path. *)
From Coq Require Import ZifyBool ZifyNat QArith Qround Lqa.
From Verif Require Import Base KeyModel HeapModel HeapProofs AngleModel AngleProofs AraModel AraSpec AraProofs AraPath MhaProofs LazyModel LazySpec LazyPq LazyProofs.
Local Open Scope Z_scope.

Section run.
Context (e : lenv) (fwd : bool) (E : Q) (N : nat) (rep : Z) (start goal : nat).
Context (HG : good_lenv fwd E N e) (Hz : zero_at e fwd goal) (Hrep : 0 <= rep < 65535) (HsN : (start < N)%nat) (HgN : (goal < N)%nat).
Notation nb := (lnbrs e fwd).
Notation hr := (lheur e fwd).
Notation tc := (ltcost e fwd).
Notation lkz := (lkz e fwd rep).
Notation lz := (lz rep).
Notation g c s := (lG (lkz c s)).
Notation v c s := (lV (lkz c s)).
Notation cl c s := (lClosed (lkz c s)).
Notation ls c s := (lList (lkz c s)).
Notation tr c s := (lTrue (lkz c s)).
Notation bp c s := (lBest (lkz c s)).
Notation xp c s := (lExp (lkz c s)).
Notation VI := (VI e fwd N rep start goal).
Notation okslot := (okslot e fwd rep goal).
Notation oklist := (oklist e fwd rep goal).
Notation Phi := (Phi e fwd N rep).

Definition setinc (a : lstate) (b : bool) : lstate := mkL (lV a) (lG a) (lH a) (lClosed a) (lRep a) (lBest a) (lExp a) b (lList a) (lTrue a).
(** Equal but for the heap and the flags in_incons. *)
Definition eqinc (c c' : lcore) : Prop := forall u, lkz c' u = setinc (lkz c u) (lInc (lkz c' u)).
Lemma eqinc_trans c c1 c2 : eqinc c c1 -> eqinc c1 c2 -> eqinc c c2.
Proof. intros H1 H2 u. rewrite (H2 u) at 1. rewrite (H1 u) at 1. done. Qed.

Lemma incons_spec eps is_ : forall c m, kInc c = is_ -> rp (kOpen c) m -> NoDup is_ -> (forall s, s ∈ is_ -> lz c s /\ m !! s = None /\ lH (lkz c s) = hr s /\ (s < N)%nat) ->
  (forall s, is_Some (m !! s) -> (s < N)%nat) -> vrep rep c ->
  exists c' m', incons_to_open eps is_ c = Ok c' /\ kInc c' = [] /\ rp (kOpen c') m' /\ eqinc c c' /\ (forall u, lz c' u <-> lz c u) /\ vrep rep c' /\
    (forall u, lInc (lkz c' u) = if decide (u ∈ is_) then false else lInc (lkz c u)) /\
    (forall u, u ∈ is_ -> m' !! u = Some (fkey eps (g c u) (hr u))) /\ (forall u, u ∉ is_ -> m' !! u = m !! u).
Proof using All.
  induction is_ as [|s is_ IH]; intros c m Hk Hr Hn Hs Hm Hv; cbn [incons_to_open].
  { exists c, m. split_and!; try done; [by intros u; destruct (lkz c u)|]. intros u Hu. by apply elem_of_nil in Hu. }
  destruct (Hs s) as (Hlz&Hms&Hh&HsN'); [apply elem_of_cons; by left|]. apply NoDup_cons in Hn as [Hn1 Hn].
  rewrite (lz_rd e fwd rep c s Hlz). cbn [obind]. destruct Hr as [R O].
  destruct (insertheap_spec ckeyops ckeylaws _ m s (fkey eps (g c s) (lH (lkz c s))) R O Hms) as (h'&Eh&R'&O').
  { assert (size m <= N)%nat by (apply map_size_lt; intros u k Hu; apply Hm; eauto). pose proof (gl_size _ _ _ _ HG). unfold HEAPSIZE. lia. }
  rewrite Eh. cbn [llift obind]. set (a' := mkL _ _ _ _ _ _ _ _ _ _). set (c1 := mkLC _ h' is_).
  assert (lRep a' = rep) as Ha' by apply lkz_rep.
  assert (forall u, lkz c1 u = if decide (u = s) then a' else lkz c u) as HL.
  { intros u. transitivity (lkz (set_l c s a') u); [done|]. by apply lkz_set. }
  assert (forall u, lz c1 u <-> lz c u) as HLz.
  { intros u. change (lz (set_l c s a') u <-> lz c u). rewrite lz_set by done. split; [|by right]. by intros [->|?]. }
  destruct (IH c1 (<[s := fkey eps (g c s) (lH (lkz c s))]> m)) as (c'&m'&E'&A1&A2&A3&A4&A5&A6&A7&A8); try done.
  { intros u Hu. assert (u <> s) by congruence. destruct (Hs u) as (?&?&?&?); [apply elem_of_cons; by right|].
    rewrite HLz, HL, decide_False, lookup_insert_ne by done. done. }
  { intros u. destruct (decide (u = s)) as [->|Hu]; [done|]. rewrite lookup_insert_ne by done. apply Hm. }
  { change (vrep rep (set_l c s a')). by apply vrep_set. }
  exists c', m'. split; [done|]. split_and!; try done.
  - apply (eqinc_trans c c1); [|done]. intros u. rewrite HL. destruct (decide (u = s)) as [->|]; [done|]. by destruct (lkz c u).
  - intros u. by rewrite A4.
  - intros u. rewrite A6, HL. destruct (decide (u = s)) as [->|Hu].
    + rewrite (decide_True (P := s ∈ s :: is_)) by (apply elem_of_cons; by left). cbn. by destruct (decide _).
    + destruct (decide (u ∈ is_)) as [Hi|Hi].
      * rewrite decide_True by (apply elem_of_cons; by right). done.
      * rewrite decide_False; [done|]. rewrite elem_of_cons. tauto.
  - intros u Hu. apply elem_of_cons in Hu as [->|Hu]; [rewrite A8 by done; rewrite lookup_insert; by rewrite Hh|].
    rewrite A7 by done. rewrite HL, decide_False by congruence. done.
  - intros u Hu. apply not_elem_of_cons in Hu as [Hu1 Hu2]. rewrite A8 by done. by rewrite lookup_insert_ne.
Qed.

Definition Kc : nat := sum_list_with (fun u => 1 + 2 * length (nb u))%nat (seq 0 N).
Lemma prepare_spec eps eps' iter late c m : VI eps iter late None c m -> 0 <= iter -> iter + 1 < 65535 ->
  exists c' m', prepareNext eps' c = Ok c' /\ VI eps' (iter + 1) late None c' m' /\ eqinc c c' /\ (Phi (iter + 1) c' <= Phi iter c + Kc)%nat.
Proof using All.
  intros I Hi0 Hi1. unfold prepareNext.
  destruct (incons_spec eps' (kInc c) c m eq_refl (v_heap _ _ _ _ _ _ _ _ _ _ _ _ I) (v_nodup _ _ _ _ _ _ _ _ _ _ _ _ I)) as (c1&m1&E1&A1&A2&A3&A4&A5&A6&A7&A8).
  { intros s Hs. destruct (v_z _ _ _ _ _ _ _ _ _ _ _ _ I s Hs) as [B1 B2]. pose proof (v_rng _ _ _ _ _ _ _ _ _ _ _ _ I s).
    assert (lz c s) as Hl by (apply (fin_lz e fwd); left; lia). split_and!; try done.
    - destruct (m !! s) eqn:Em; [|done]. exfalso. by destruct (v_m _ _ _ _ _ _ _ _ _ _ _ _ I s) as (_&?&_); [eauto|].
    - apply (v_h _ _ _ _ _ _ _ _ _ _ _ _ I).
    - by apply (v_dom _ _ _ _ _ _ _ _ _ _ _ _ I). }
  { intros s Hs. apply (v_dom _ _ _ _ _ _ _ _ _ _ _ _ I). by apply (v_m _ _ _ _ _ _ _ _ _ _ _ _ I s). }
  { apply (v_rep _ _ _ _ _ _ _ _ _ _ _ _ I). }
  rewrite E1. cbn [obind]. unfold lrekey. destruct A2 as [R O].
  set (f := fun s (k : ckey) => match kSt c1 !! s with Some a => mkKey (k0 (fkey eps' (lG a) (lH a))) (k1 k) | None => k end).
  destruct (rekey_spec f (kOpen c1) m1 R) as (h1&E2&R1). rewrite E2. cbn [llift obind].
  destruct (makeheap_spec ckeyops ckeylaws h1 _ R1) as (h2&E3&R2&O2). rewrite E3. cbn [llift obind].
  set (m' := map_imap (λ s k, Some (f s k)) m1) in *.
  assert (forall s, m' !! s = f s <$> m1 !! s) as Hm'.
  { intros s. unfold m'. rewrite map_lookup_imap. by destruct (m1 !! s). }
  assert (forall s, is_Some (m' !! s) <-> s ∈ kInc c \/ is_Some (m !! s)) as Hd.
  { intros s. rewrite Hm', fmap_is_Some. destruct (decide (s ∈ kInc c)) as [Hs|Hs]; [rewrite A7 by done; split; eauto|rewrite A8 by done; tauto]. }
  set (c' := mkLC (kSt c1) h2 (kInc c1)). change (eqinc c c') in A3. change (kInc c' = []) in A1.
  assert (forall s, v c' s = v c s) as Fv by (intros s; by rewrite (A3 s)).
  assert (forall s, v c' s <= v c s) as Fv' by (intros s; rewrite Fv; lia).
  assert (forall s, g c' s = g c s) as Fg by (intros s; by rewrite (A3 s)).
  assert (forall s, cl c' s = cl c s) as Fc by (intros s; by rewrite (A3 s)).
  assert (forall s, bp c' s = bp c s) as Fb by (intros s; by rewrite (A3 s)).
  assert (forall s, xp c' s = xp c s) as Fx by (intros s; by rewrite (A3 s)).
  assert (forall s, ls c' s = ls c s) as Fl by (intros s; by rewrite (A3 s)).
  assert (forall s, tr c' s = tr c s) as Ft by (intros s; by rewrite (A3 s)).
  assert (forall s, lH (lkz c' s) = lH (lkz c s)) as Fh by (intros s; by rewrite (A3 s)).
  assert (forall s k, m' !! s = Some k -> k = fkey eps' (g c s) (hr s)) as HK.
  { intros s k Hs. rewrite Hm' in Hs. destruct (m1 !! s) as [k'|] eqn:Em; [|discriminate]. injection Hs as <-.
    assert (lz c s /\ k1 k' = 0) as [Hl Hk'].
    { destruct (decide (s ∈ kInc c)) as [Hs|Hs].
      - rewrite A7 in Em by done. injection Em as <-. split; [|apply fkey_k1]. destruct (v_z _ _ _ _ _ _ _ _ _ _ _ _ I s Hs) as [B1 B2]. 
        pose proof (v_rng _ _ _ _ _ _ _ _ _ _ _ _ I s). apply (fin_lz e fwd); left; lia.
      - rewrite A8 in Em by done. split; [by apply (v_m _ _ _ _ _ _ _ _ _ _ _ _ I s); eauto|]. rewrite (v_key _ _ _ _ _ _ _ _ _ _ _ _ I s k' Em). apply fkey_k1. }
    assert (lz c1 s) as Hl1 by by apply A4. unfold f. rewrite (lz_lk e fwd rep c1 s Hl1). change (lkz c1 s) with (lkz c' s).
    rewrite Fg, Fh, (v_h _ _ _ _ _ _ _ _ _ _ _ _ I), Hk'. rewrite <- (fkey_k1 eps' (g c s) (hr s)). by destruct (fkey _ _ _). }
  exists c', m'. split; [done|]. split_and!; [|done|].
  - pose proof (v_cl _ _ _ _ _ _ _ _ _ _ _ _ I) as Hcl.
    destruct I. split; try done; try (intros; rewrite ?Fv, ?Fg, ?Fc, ?Fb, ?Fx, ?Fl, ?Ft, ?Fh in *; by auto).
    + intros s Hs. apply v_dom. by apply A4.
    + intros s. rewrite Fg, Fv. intros Hs. right. left. apply Hd. destruct (v_in s Hs) as [?|[?|?]]; [done|by right|by left].
    + intros s Hs. rewrite Fg, Fv, Fc. apply Hd in Hs. destruct (Hcl s) as [->|?].
      all: split_and!; try done; try lia.
      all: try (destruct Hs as [Hs|Hs]; [left; by apply v_z|by apply v_m]).
      all: apply A4; destruct Hs as [Hs|Hs]; [destruct (v_z s Hs); pose proof (v_rng s); apply (fin_lz e fwd); left; lia|by apply v_m].
    + intros s Hs. rewrite A1 in Hs. by apply elem_of_nil in Hs.
    + rewrite A1. constructor.
    + intros s. rewrite A1. change (lInc (lkz c1 s) = true <-> s ∈ []). rewrite A6. split; [|intros Hs; by apply elem_of_nil in Hs].
      destruct (decide (s ∈ kInc c)) as [?|Hn]; [done|]. intros Hs. exfalso. by apply Hn, v_flag.
    + intros s. rewrite Fc. intros Hs. exfalso. destruct (Hcl s) as [?|?]; lia.
    + intros s. rewrite Fc. destruct (Hcl s) as [?|?]; lia.
    + rewrite Fc. destruct (Hcl goal) as [?|?]; lia.
    + by apply A4.
    + intros s. rewrite Fg, Fb, Ft. intros H1 H2. apply (okslot_ext e fwd rep goal c); auto.
    + intros s x. rewrite Fl. intros Hx. apply (oklist_ext e fwd rep goal late c); auto.
    + intros s. rewrite Fv, Fx. intros H1 H2. destruct (v_back s H1 H2) as (b&?&?). exists b. split; [|done]. by apply (okslot_ext e fwd rep goal c).
  - unfold LazyProofs.Phi, Kc. generalize (seq 0 N). induction l as [|u l IHl]; cbn [sum_list_with]; [lia|].
    assert (mu e fwd rep (iter + 1) c' u <= mu e fwd rep iter c u + (1 + 2 * length (nb u)))%nat; [|lia].
    unfold mu, wt. rewrite Ft, Fl. destruct (cl c' u =? iter + 1); lia.
Qed.

(** * The beginning of a call *)
Lemma linit_spec q c : (exists m, HeapProofs.rep (kOpen c) m) -> (forall s a, kSt c !! s = Some a -> lRep a < rep) -> (0 <= xInit q <= E)%Q ->
  exists c' m', linit e fwd q rep (if fwd then goal else start) (if fwd then start else goal) c = Ok (c', start, goal) /\
    VI (xInit q) 0 false None c' m' /\ m' = {[ start := fkey (xInit q) 0 (hr start) ]} /\
    lkz c' start = mkL INFINITECOST 0 (hr start) 65535 rep None None false [] true /\
    (forall u, u <> start -> lkz c' u = fresh_lstate e fwd rep u).
Proof using All.
  intros [m Rm] Hst Hq. unfold linit. destruct (makeemptyheap_spec ckeyops _ _ Rm) as (h0&Eh0&Rh0&Oh0). rewrite Eh0. cbn [llift obind].
  set (c0 := mkLC (kSt c) h0 []).
  assert (forall s, ~ lz c0 s) as Hno. { intros s (a&Ha&Hr). specialize (Hst s a Ha). lia. }
  assert (forall s, lkz c0 s = fresh_lstate e fwd rep s) as HL0 by (intros; by apply dead_lk).
  assert (vrep rep c0) as Hv0. { intros s a Ha. specialize (Hst s a Ha). lia. }
  assert (forall c1 t, vrep rep c1 -> vrep rep (LGetState e fwd rep c1 t)) as Hvg.
  { intros c1 t Hv. unfold LGetState. destruct (lRep (default new_lstate (kSt c1 !! t)) =? rep) eqn:Er.
    - apply vrep_set; [done|lia].
    - change (vrep rep (set_l c1 t (fresh_lstate e fwd rep t))). by apply vrep_set. }
  set (t1 := if fwd then goal else start). set (t2 := if fwd then start else goal).
  destruct (LGetState_lk e fwd E N rep start goal HG Hz Hrep HsN HgN (xInit q) 0 false Hq ltac:(lia) c0 t1) as (A1&A2&A3&A4&A5&A6).
  set (c1 := LGetState e fwd rep c0 t1) in *.
  destruct (LGetState_lk e fwd E N rep start goal HG Hz Hrep HsN HgN (xInit q) 0 false Hq ltac:(lia) c1 t2) as (B1&B2&B3&B4&B5&B6).
  set (c2 := LGetState e fwd rep c1 t2) in *.
  assert (forall s, lz c2 s <-> s = start \/ s = goal) as HLz.
  { intros s. rewrite B3, A3. unfold t1, t2. pose proof (Hno s). destruct fwd; tauto. }
  assert (rp (kOpen c2) ∅) as Hrp.
  { assert (rp (kOpen c1) ∅) as Hr1.
    { rewrite A6 by apply Hno. apply rp_idx; [done|by rewrite lookup_empty]. }
    destruct (lz_dec rep c1 t2) as [Hl|Hl]; [by rewrite B5|]. rewrite B6 by done. apply rp_idx; [done|by rewrite lookup_empty]. }
  assert (vrep rep c2) as Hv2 by by apply Hvg, Hvg.
  assert (forall s, lkz c2 s = fresh_lstate e fwd rep s) as HL2 by (intros; rewrite B1, A1; apply HL0).
  assert ((if fwd then t2 else t1) = start) as -> by (unfold t1, t2; by destruct fwd).
  assert ((if fwd then t1 else t2) = goal) as -> by (unfold t1, t2; by destruct fwd).
  rewrite (lz_rd e fwd rep c2 start) by (apply HLz; by left). rewrite HL2. cbn [obind fresh_lstate lV lG lH lClosed lRep lBest lExp lInc lList lTrue].
  set (a' := mkL INFINITECOST 0 (hr start) 65535 rep None None false [] true). set (c3 := set_l c2 start a').
  assert (mkKey (Qtrunc (xInit q * inject_Z (hr start))) 0 = fkey (xInit q) 0 (hr start)) as ->.
  { pose proof (toint_nonneg E (xInit q) Hq (hr start) (gl_heur _ _ _ _ HG start) (gl_heurE _ _ _ _ HG start)) as [T1 T2].
    rewrite fkey_eq; [|unfold INFINITECOST; lia|done]. f_equal. rewrite T1. rewrite Qtrunc_floor; [lia|].
    assert (0 <= inject_Z (hr start))%Q by (rewrite <- (Zle_Qle 0); apply (gl_heur _ _ _ _ HG)). destruct Hq. nra. }
  destruct Hrp as [R2 O2].
  destruct (insertheap_spec ckeyops ckeylaws (kOpen c3) ∅ start (fkey (xInit q) 0 (hr start)) R2 O2) as (h'&Eh&R'&O').
  { apply lookup_empty. } { rewrite map_size_empty. unfold HEAPSIZE. lia. }
  rewrite Eh. cbn [llift obind]. set (c4 := mkLC (kSt c3) h' (kInc c3)).
  assert (forall u, lkz c4 u = if decide (u = start) then a' else fresh_lstate e fwd rep u) as HL.
  { intros u. transitivity (lkz c3 u); [done|]. unfold c3. rewrite lkz_set by done. destruct (decide (u = start)); [done|apply HL2]. }
  assert (forall s, lz c4 s <-> s = start \/ s = goal) as HLz4.
  { intros s. change (lz c3 s <-> s = start \/ s = goal). unfold c3. rewrite lz_set by done. rewrite HLz. tauto. }
  assert (vrep rep c4) as Hv4 by by apply (vrep_set rep c2).
  assert (kInc c4 = []) as Hk4. { change (kInc c2 = []). rewrite B4, A4. done. }
  assert (lkz c4 start = a') as HLs by (rewrite HL; by rewrite decide_True).
  assert (forall u, u <> start -> lkz c4 u = fresh_lstate e fwd rep u) as HLo by (intros u Hu; rewrite HL; by rewrite decide_False).
  exists c4, {[ start := fkey (xInit q) 0 (hr start) ]}. split; [done|]. split_and!; try done.
  assert (forall u, lkz c4 u = a' /\ u = start \/ lkz c4 u = fresh_lstate e fwd rep u /\ u <> start) as Hcs.
  { intros u. destruct (decide (u = start)) as [->|Hu]; [by left|right]. split; [by apply HLo|done]. }
  assert (rp (kOpen c4) {[start := fkey (xInit q) 0 (hr start)]}) as Hrp4 by done.
  clearbody c4.
  assert (forall s k, ({[start := fkey (xInit q) 0 (hr start)]} : gmap nat ckey) !! s = Some k -> s = start /\ k = fkey (xInit q) 0 (hr start)) as Hm.
  { intros s k. rewrite lookup_singleton_Some. by intros [<- <-]. }
  split; try (intros s; destruct (Hcs s) as [[-> Hs]|[-> Hs]]; cbn; unfold INFINITECOST; (done || lia || tauto)).
  - done.
  - exact Hv4.
  - intros s Hs. apply HLz4 in Hs as [->| ->]; done.
  - intros s. destruct (Hcs s) as [[-> ->]|[-> Hs]]; done.
  - intros s. destruct (Hcs s) as [[-> ->]|[-> Hs]]; cbn; [|lia]. intros _. right. left. rewrite lookup_singleton. eauto.
  - intros s [k Hk]. apply Hm in Hk as [-> ->]. rewrite HLs. cbn. split_and!; try done; [left; unfold INFINITECOST; lia|]. apply HLz4. by left.
  - intros s Hs. rewrite Hk4 in Hs. by apply elem_of_nil in Hs.
  - rewrite Hk4. constructor.
  - intros s. rewrite Hk4. destruct (Hcs s) as [[-> Hs]|[-> Hs]]; cbn; (split; [done|intros Hx; by apply elem_of_nil in Hx]).
  - destruct (Hcs goal) as [[-> Hs]|[-> Hs]]; cbn; lia.
  - apply HLz4. by right.
  - by rewrite HLs.
  - intros s x Hx. exfalso. destruct (Hcs s) as [[Hl _]|[Hl _]]; rewrite Hl in Hx; by apply elem_of_nil in Hx.
  - intros s k Hk. apply Hm in Hk as [-> ->]. by rewrite HLs.
Qed.

(** * The path *)
Notation sedge := (sedge e fwd).
Notation idw := (fun x : Z => x).
Lemma sedge_real p t w : sedge p t w <-> if fwd then real_edge e true p t w else real_edge e false t p w.
Proof using. clear HG Hz. unfold LazyProofs.sedge, real_edge, listed, lnbrs, ltcost. by destruct fwd. Qed.
Definition act (p s : nat) : Z := foldl (fun m x => if (x.1.1 =? s)%nat && (x.1.2 <? m) then x.1.2 else m) INFINITECOST (nb p).
Lemma act_spec p s c b : (s, c, b) ∈ nb p -> (exists b', (s, act p s, b') ∈ nb p) /\ forall c' b', (s, c', b') ∈ nb p -> act p s <= c'.
Proof using All.
  intros Hin. unfold act.
  assert (forall (l : list (nat * Z * bool)) (m0 : Z), let m := foldl (fun (m : Z) x => if (x.1.1 =? s)%nat && (x.1.2 <? m) then x.1.2 else m) m0 l in
    m <= m0 /\ (m = m0 \/ exists b', (s, m, b') ∈ l) /\ forall c' b', (s, c', b') ∈ l -> m <= c') as Hl.
  { induction l as [|[[t x] b0] l IH]; intros m0; cbn [foldl fst snd].
    - cbn. split_and!; [lia|by left|]. intros c' b' H. by apply elem_of_nil in H.
    - destruct ((t =? s)%nat && (x <? m0)) eqn:Et.
      + destruct (IH x) as (A1&A2&A3). assert (t = s) as -> by lia. split_and!; [lia| |].
        * right. destruct A2 as [->|(b'&?)]; [exists b0; apply elem_of_cons; by left|exists b'; apply elem_of_cons; by right].
        * intros c' b' H. apply elem_of_cons in H as [[= -> ->]|H]; [lia|by eapply A3].
      + destruct (IH m0) as (A1&A2&A3). split_and!; [lia| |].
        * destruct A2 as [?|(b'&?)]; [by left|right; exists b'; apply elem_of_cons; by right].
        * intros c' b' H. apply elem_of_cons in H as [[= -> -> ->]|H]; [|by eapply A3]. rewrite Nat.eqb_refl in Et. cbn in Et. lia. }
  destruct (Hl (nb p) INFINITECOST) as (A1&A2&A3). split; [|exact A3].
  set (M := foldl _ _ _) in *. destruct A2 as [A2|?]; [|done]. exists b. destruct (gl_edge _ _ _ _ HG _ _ _ _ Hin) as (_&?&_).
  pose proof (A3 c b Hin). assert (M = c) as -> by lia. done.
Qed.
Lemma act_least p s c b : (s, c, b) ∈ nb p -> if fwd then least e true p s (act p s) else least e false s p (act p s).
Proof using All.
  intros Hin. destruct (act_spec p s c b Hin) as [[b' A1] A2]. unfold lnbrs in *. destruct fwd; (split; [exists b'; exact A1|exact A2]).
Qed.
Lemma sl_nb p s c b : sl e fwd p s c b -> exists c' b', (s, c', b') ∈ nb p.
Proof. destruct b; [intros [H|(c'&H&_)]; eauto|intros H; cbn in H; eauto]. Qed.

(** Following the back pointers: [rs] are routes backwards from a state to the start of the search. *)
Section follow.
Context (eps : Q) (iter : Z) (late : bool) (c : lcore) (m : gmap nat ckey) (I : VI eps iter late None c m).
Definition below (s : nat) : nat := length (filter (fun u => v c u < v c s) (elements (dom (kSt c) : gset nat))).
Lemma follow_spec fuel : forall s acc cost, s <> goal -> v c s < INFINITECOST -> (below s < fuel)%nat ->
  exists l C Cx, lfollow e fwd fuel c start s acc cost = Ok (acc ++ l, cost + Cx) /\ C <= v c s /\
    route idw (fun a b w => sedge b a w) (s :: l) s start C /\
    route idw (fun a b w => w = act b a /\ exists c b', (a, c, b') ∈ nb b) (s :: l) s start Cx.
Proof using All.
  induction fuel as [|fuel IH]; intros s acc cost Hsg Hv Hf; [lia|]. cbn [lfollow].
  destruct (s =? start)%nat eqn:Es.
  { assert (s = start) as -> by lia. exists [], 0, 0. rewrite app_nil_r, Z.add_0_r. pose proof (v_rng _ _ _ _ _ _ _ _ _ _ _ _ I start).
    split_and!; try done; [lia|constructor|constructor]. }
  assert (s <> start) as Hss by lia.
  rewrite (lz_rd e fwd rep c s) by (apply (fin_lz e fwd); by right). cbn [obind].
  destruct (v_back _ _ _ _ _ _ _ _ _ _ _ _ I s Hv Hss) as (b&(p&c0&Hp1&Hp2&Hp3&Hp4&Hp5)&Hb). rewrite Hp1.
  replace (v c s =? INFINITECOST) with false by lia. destruct b; [|by destruct (Hb eq_refl)]. cbn in Hp4.
  pose proof (sedge_range e fwd E N rep start goal HG Hz Hrep HsN HgN p s c0 Hp4) as [_ Hc0].
  destruct (IH p (acc ++ [p]) (cost + act p s) Hp2 Hp3) as (l&C&Cx&E1&A1&A2&A3).
  { assert (below p < below s)%nat; [|lia]. unfold below. apply (filter_len_strict _ _ _ p).
    - intros x. lia.
    - apply elem_of_elements, elem_of_dom. eexists. apply (lz_lk e fwd rep). apply (fin_lz e fwd). by right.
    - lia.
    - lia. }
  fold (act p s). rewrite E1. exists (p :: l), (c0 + C), (act p s + Cx). rewrite <- app_assoc. cbn [app].
  replace (cost + act p s + Cx) with (cost + (act p s + Cx)) by lia. split_and!; try done.
  - lia.
  - by apply (route_cons idw _ s p l start c0 C).
  - apply (route_cons idw _ s p l start (act p s) Cx); [|done]. split; [done|]. apply (sl_nb p s c0 true). done.
Qed.
End follow.

Lemma route_rev' W (R R' : nat -> nat -> Z -> Prop) l a b C : route W R l a b C -> (forall u v w, R u v w -> R' v u w) -> route W R' (reverse l) b a C.
Proof using. clear HG Hz Hrep HsN HgN.
  intros H HR. induction H as [a|a b l z x C Hab H IH]; [constructor|].
  rewrite reverse_cons. replace (W x + C) with (C + W x) by lia. eapply AraPath.route_snoc; [exact IH|by apply HR].
Qed.
Lemma route_impl' W (e1 e2 : nat -> nat -> Z -> Prop) l a b C : (forall u v c, e1 u v c -> e2 u v c) -> route W e1 l a b C -> route W e2 l a b C.
Proof. intros H. induction 1; econstructor; eauto. Qed.

(** First and last state of the path. *)
Definition pa : nat := if fwd then start else goal.
Definition pz : nat := if fwd then goal else start.
(** An edge of the path: a real one, or, if not [ok], an edge listed with an estimate at the end of the search. *)
Definition pedge (ok : bool) (a b : nat) (w : Z) : Prop :=
  real_edge e fwd a b w \/ ok = false /\ (if fwd then b else a) = goal /\ listed e fwd a b w false.

Lemma path_from_goal eps iter late c m : VI eps iter late None c m -> v c goal < INFINITECOST ->
  exists l C Cx, lfollow e fwd (S (S (size (kSt c)))) c start goal [goal] 0 = Ok (goal :: l, Cx) /\
    C <= v c goal /\ route idw (pedge (negb late)) (if fwd then reverse (goal :: l) else goal :: l) pa pz C /\
    route idw (least e fwd) (if fwd then reverse (goal :: l) else goal :: l) pa pz Cx.
Proof using All.
  intros I Hv. set (fu := S (size (kSt c))). cbn [lfollow].
  destruct (goal =? start)%nat eqn:Eg.
  { assert (goal = start) as Hg by lia. exists [], 0, 0. pose proof (v_rng _ _ _ _ _ _ _ _ _ _ _ _ I goal). split_and!; try done; [lia| |].
    all: unfold pa, pz; rewrite Hg; destruct fwd; constructor. }
  assert (goal <> start) as Hgs by lia. rewrite (lz_rd e fwd rep c goal) by (apply (fin_lz e fwd); by right). cbn [obind].
  destruct (v_back _ _ _ _ _ _ _ _ _ _ _ _ I goal Hv Hgs) as (b&(p&c0&Hp1&Hp2&Hp3&Hp4&Hp5)&Hb). rewrite Hp1.
  replace (v c goal =? INFINITECOST) with false by lia. fold (act p goal).
  destruct (follow_spec eps iter late c m I fu p ([goal] ++ [p]) (0 + act p goal) Hp2 Hp3) as (l&C&Cx&E1&A1&A2&A3).
  { unfold fu, below. pose proof (filter_length (fun u => v c u < v c p) (elements (dom (kSt c) : gset nat))) as Hf.
    change (length (elements (dom (kSt c) : gset nat))) with (size (dom (kSt c) : gset nat)) in Hf. rewrite size_dom in Hf. lia. }
  rewrite E1. exists (p :: l), (c0 + C), (act p goal + Cx). split_and!; try done; [lia| |].
  - assert (route idw (fun a b0 w => if fwd then pedge (negb late) b0 a w else pedge (negb late) a b0 w) (goal :: p :: l) goal start (c0 + C)) as HR.
    { apply (route_cons idw _ goal p l start c0 C).
      - destruct b.
        + cbn in Hp4. apply sedge_real in Hp4. unfold pedge. destruct fwd; by left.
        + destruct (Hb eq_refl) as [_ ->]. unfold pedge, listed. cbn in Hp4. unfold lnbrs in Hp4. destruct fwd; right; done.
      - eapply route_impl'; [|exact A2]. intros u w x Hx. apply sedge_real in Hx. unfold pedge. destruct fwd; by left. }
    unfold pa, pz. destruct fwd; [|exact HR]. eapply route_rev'; [exact HR|]. done.
  - assert (route idw (fun a b0 w => w = act b0 a /\ exists c' b', (a, c', b') ∈ nb b0) (goal :: p :: l) goal start (act p goal + Cx)) as HR.
    { apply (route_cons idw _ goal p l start (act p goal) Cx); [|done]. split; [done|]. by apply (sl_nb p goal c0 b). }
    pose proof act_least as Hal.
    unfold pa, pz. destruct fwd.
    + eapply route_rev'; [exact HR|]. intros u w x (->&c'&b'&Hin). by apply (Hal w u c' b').
    + eapply route_impl'; [|exact HR]. intros u w x (->&c'&b'&Hin). by apply (Hal w u c' b').
Qed.
End run.
