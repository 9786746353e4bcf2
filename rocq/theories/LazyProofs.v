From Coq Require Import ZifyBool ZifyNat QArith Qround Lqa.
From Verif Require Import Base KeyModel HeapModel HeapProofs AngleModel AngleProofs AraModel AraSpec AraProofs MhaProofs LazyModel LazySpec LazyPq.
Local Open Scope Z_scope.

(** * The state of one replan call, as the search sees it *)
Section run.
Context (e : lenv) (fwd : bool) (E : Q) (N : nat) (rep : Z) (start goal : nat).
Context (HG : good_lenv fwd E N e) (Hz : zero_at e fwd goal) (Hrep : 0 <= rep < 65535) (HsN : (start < N)%nat) (HgN : (goal < N)%nat).
Notation nb := (lnbrs e fwd).
Notation hr := (lheur e fwd).
Notation tc := (ltcost e fwd).

Definition lkz (c : lcore) (s : nat) : lstate :=
  match kSt c !! s with Some a => if lRep a =? rep then a else fresh_lstate e fwd rep s | None => fresh_lstate e fwd rep s end.
Definition lz (c : lcore) (s : nat) : Prop := exists a, kSt c !! s = Some a /\ lRep a = rep.
Notation g c s := (lG (lkz c s)).
Notation v c s := (lV (lkz c s)).
Notation cl c s := (lClosed (lkz c s)).
Notation ls c s := (lList (lkz c s)).
Notation tr c s := (lTrue (lkz c s)).
Notation bp c s := (lBest (lkz c s)).
Notation xp c s := (lExp (lkz c s)).

Lemma lz_dec c s : lz c s \/ ~ lz c s.
Proof.
  unfold lz. destruct (kSt c !! s) as [a|] eqn:Ea; [|right; intros (a&[=]&_)].
  destruct (decide (lRep a = rep)); [left; eauto|right; intros (b&[= <-]&?); done].
Qed.
Lemma lz_lk c s : lz c s -> kSt c !! s = Some (lkz c s).
Proof. intros (a&Ea&Er). unfold lkz. by rewrite Ea, Er, Z.eqb_refl. Qed.
Lemma lz_rd c s : lz c s -> rdl c s = Ok (lkz c s).
Proof. intros H. unfold rdl. by rewrite (lz_lk c s H). Qed.
Lemma dead_lk c s : ~ lz c s -> lkz c s = fresh_lstate e fwd rep s.
Proof using. clear HG HsN HgN Hrep.
  intros H. unfold lkz. destruct (kSt c !! s) as [a|] eqn:Ea; [|done]. destruct (lRep a =? rep) eqn:Er; [|done].
  exfalso. apply H. exists a. split; [done|lia].
Qed.
Lemma lkz_rep c s : lRep (lkz c s) = rep.
Proof using. clear HG HsN HgN Hrep. unfold lkz. destruct (kSt c !! s) as [a|]; [destruct (lRep a =? rep) eqn:Er|]; cbn; try done. lia. Qed.
Lemma fin_lz c s : g c s < INFINITECOST \/ v c s < INFINITECOST -> lz c s.
Proof using. clear HG HsN HgN Hrep. intros H. destruct (lz_dec c s) as [?|Hn]; [done|]. rewrite (dead_lk c s Hn) in H. cbn in H. unfold INFINITECOST in *. lia. Qed.
Lemma lkz_set c t a s : lRep a = rep -> lkz (set_l c t a) s = if decide (s = t) then a else lkz c s.
Proof.
  intros Ha. unfold lkz, set_l. cbn. destruct (decide (s = t)) as [->|Hn].
  - by rewrite lookup_insert, Ha, Z.eqb_refl.
  - by rewrite lookup_insert_ne.
Qed.
Lemma lz_set c t a s : lRep a = rep -> lz (set_l c t a) s <-> s = t \/ lz c s.
Proof.
  intros Ha. unfold lz, set_l. cbn. destruct (decide (s = t)) as [->|Hn].
  - rewrite lookup_insert. split; [by left|]. eauto.
  - rewrite lookup_insert_ne by done. split; [by right|]. by intros [?|?].
Qed.

(** Edges of the search graph. *)
Definition sedge (p t : nat) (w : Z) : Prop := (t, w, true) ∈ nb p \/ exists c, (t, c, false) ∈ nb p /\ tc p t = w /\ 0 < w.
(** What an entry of a lazy list stands for. *)
Definition sl (p t : nat) (c : Z) (b : bool) : Prop := if b then sedge p t c else (t, c, false) ∈ nb p.
Lemma sedge_range p t w : sedge p t w -> (t < N)%nat /\ 0 < w <= INFINITECOST.
Proof using All.
  intros [H|(c&H&<-&?)]; destruct (gl_edge _ _ _ _ HG _ _ _ _ H) as (?&?&Hb).
  - specialize (Hb eq_refl). lia.
  - pose proof (gl_true _ _ _ _ HG p t). lia.
Qed.
Lemma sl_range p t c b : sl p t c b -> (t < N)%nat /\ 0 <= c <= INFINITECOST.
Proof using All.
  destruct b; cbn; intros H; [apply sedge_range in H; lia|]. by destruct (gl_edge _ _ _ _ HG _ _ _ _ H) as (?&?&_).
Qed.

(** Value of an element of a lazy list. *)
Definition zval (c : lcore) (x : lelem) : Z := v c (lePar x) + leCost x.

Section iter.
Context (eps : Q) (iter : Z) (late : bool) (Heps : (0 <= eps <= E)%Q) (Hiter : 0 <= iter < 65535).

Definition vrep (c : lcore) : Prop := forall s a, kSt c !! s = Some a -> lRep a <= rep.
Lemma vrep_set c t a : vrep c -> lRep a = rep -> vrep (set_l c t a).
Proof using. clear HG HsN HgN Hrep.
  intros Hv Ha s b. cbn. destruct (decide (s = t)) as [->|Hn].
  - rewrite lookup_insert. intros [= <-]. lia.
  - rewrite lookup_insert_ne by done. apply Hv.
Qed.
(** A parent [o] that justifies value [x] of state [t]; an element of the lazy list of [t]. *)
Definition okslot (c : lcore) (t : nat) (o : option nat) (x : Z) (b : bool) : Prop :=
  exists p c0, o = Some p /\ p <> goal /\ v c p < INFINITECOST /\ sl p t c0 b /\ v c p + c0 <= x.
Definition oklist (c : lcore) (t : nat) (x : lelem) : Prop :=
  lePar x <> goal /\ v c (lePar x) < INFINITECOST /\ 0 <= leCost x <= INFINITECOST /\ (zval c x < v c t \/ t = goal /\ late = true) /\
  exists c0, sl (lePar x) t c0 (leTrue x) /\ c0 <= leCost x.
Lemma okslot_ext c c' t o x b : (forall s, v c' s <= v c s) -> okslot c t o x b -> okslot c' t o x b.
Proof using. clear HG HsN HgN Hrep. intros Hv (p&c0&?&?&?&?&?). exists p, c0. specialize (Hv p). split_and!; try done; lia. Qed.
Lemma oklist_ext c c' t x : (forall s, v c' s <= v c s) -> v c' t = v c t -> oklist c t x -> oklist c' t x.
Proof using. clear HG HsN HgN Hrep. intros Hv Ht (?&?&?&Hz'&?). unfold zval in *. pose proof (Hv (lePar x)). unfold oklist, zval. split_and!; try done; try lia.
  destruct Hz' as [?|?]; [left; lia|by right]. Qed.

Record VI (ex : option nat) (c : lcore) (m : gmap nat ckey) : Prop := {
  v_heap : rp (kOpen c) m;
  v_rep : vrep c;
  v_dom : forall s, lz c s -> (s < N)%nat;
  v_rng : forall s, 0 <= g c s <= INFINITECOST /\ 0 <= v c s <= INFINITECOST;
  v_h : forall s, lH (lkz c s) = hr s;
  v_in : forall s, g c s < v c s -> ex = Some s \/ is_Some (m !! s) \/ s ∈ kInc c;
  v_m : forall s, is_Some (m !! s) -> (g c s < v c s \/ s = goal /\ g c s = v c s) /\ cl c s <> iter /\ ex <> Some s /\ lz c s;
  v_z : forall s, s ∈ kInc c -> g c s < v c s /\ cl c s = iter;
  v_nodup : NoDup (kInc c);
  v_flag : forall s, lInc (lkz c s) = true <-> s ∈ kInc c;
  v_closed : forall s, cl c s = iter -> v c s < INFINITECOST;
  v_cl : forall s, cl c s = 65535 \/ 0 <= cl c s <= iter;
  v_goal : cl c goal <> iter;
  v_lz : lz c goal;
  v_start : g c start = 0 /\ tr c start = true;
  v_true : forall t, tr c t = true -> ls c t = [];
  v_slot : forall t, t <> start -> g c t < INFINITECOST -> okslot c t (bp c t) (g c t) (tr c t);
  v_list : forall t x, x ∈ ls c t -> oklist c t x;
  v_back : forall s, v c s < INFINITECOST -> s <> start -> exists b, okslot c s (xp c s) (v c s) b /\ (b = false -> s = goal /\ late = true);
  v_tr : forall t, tr c t = false -> g c t < v c t \/ (t = goal /\ late = true);
  v_over : forall s, v c s < g c s -> g c s = INFINITECOST /\ tr c s = true;
  v_xp : forall s, v c s = INFINITECOST -> xp c s = None;
  v_key : forall s k, m !! s = Some k -> k = fkey eps (g c s) (hr s);
  v_exn : forall s, ex = Some s -> m !! s = None /\ cl c s <> iter
}.

Lemma VI_same ex c c' m : VI ex c m -> (forall s, lkz c' s = lkz c s) -> rp (kOpen c') m -> vrep c' -> kInc c' = kInc c ->
  (forall s, lz c' s -> (s < N)%nat) -> (forall s, lz c s -> lz c' s) -> VI ex c' m.
Proof.
  intros I HL Hr Hvr Hi Hd Hlz. destruct I.
  assert (forall s, v c' s <= v c s) as Hv by (intros; rewrite HL; lia).
  split; try done; try (intros; rewrite ?HL, ?Hi in *; by auto).
  - intros s Hs. rewrite !HL. destruct (v_m0 s Hs) as (?&?&?&?). auto.
  - intros t. rewrite HL. intros. apply (okslot_ext c); auto.
  - intros t x. rewrite HL. intros. apply (oklist_ext c); auto. by rewrite HL.
  - intros t. rewrite HL. intros H1 H2. destruct (v_back0 t H1 H2) as (b&Hb&?). exists b. split; [|done]. by apply (okslot_ext c).
Qed.
Lemma VI_room ex c m : VI ex c m -> Z.of_nat (size m) <> HEAPSIZE - 1.
Proof using All.
  intros I. assert (size m <= N)%nat as Hs.
  { apply map_size_lt. intros s k Hk. apply (v_dom _ _ _ I). by apply (v_m _ _ _ I s). }
  pose proof (gl_size _ _ _ _ HG). unfold HEAPSIZE. lia.
Qed.
Lemma rp_idx h m t : rp h m -> m !! t = None -> rp (set_idx h t 0) m.
Proof.
  intros [R O] Hn. split; [by apply idx_rep|]. intros i a b. exact (O i a b).
Qed.

(** GetState makes a state part of the search without changing what the search sees. *)
Lemma LGetState_lk c t : (forall s, lkz (LGetState e fwd rep c t) s = lkz c s) /\ lz (LGetState e fwd rep c t) t /\
  (forall s, lz (LGetState e fwd rep c t) s <-> s = t \/ lz c s) /\ kInc (LGetState e fwd rep c t) = kInc c /\
  (lz c t -> kOpen (LGetState e fwd rep c t) = kOpen c) /\ (~ lz c t -> kOpen (LGetState e fwd rep c t) = set_idx (kOpen c) t 0).
Proof using All.
  unfold LGetState. destruct (kSt c !! t) as [a|] eqn:Ea; cbn [default from_option]; unfold id; [|cbn [new_lstate lRep]].
  - destruct (lRep a =? rep) eqn:Er.
    + assert (lz c t) as Hl by (exists a; split; [done|lia]).
      assert (lkz c t = a) as El by (unfold lkz; by rewrite Ea, Er).
      split_and!; try done.
      * intros s. rewrite lkz_set by lia. destruct (decide (s = t)) as [->|]; done.
      * apply lz_set; [lia|by left].
      * intros s. apply lz_set. lia.
    + assert (~ lz c t) as Hl by (intros (b&Hb&?); rewrite Ea in Hb; injection Hb as <-; lia).
      pose proof (dead_lk c t Hl) as El.
      split_and!; try done.
      * intros s. change (mkLC _ _ _) with (mkLC (kSt (set_l c t (fresh_lstate e fwd rep t))) (set_idx (kOpen c) t 0) (kInc c)).
        transitivity (lkz (set_l c t (fresh_lstate e fwd rep t)) s); [done|]. rewrite lkz_set by done.
        destruct (decide (s = t)) as [->|]; done.
      * exists (fresh_lstate e fwd rep t). cbn. by rewrite lookup_insert.
      * intros s. change (lz (set_l c t (fresh_lstate e fwd rep t)) s <-> s = t \/ lz c s). by apply lz_set.
  - replace (65535 =? rep) with false by lia.
    assert (~ lz c t) as Hl by (intros (b&Hb&?); rewrite Ea in Hb; done).
    pose proof (dead_lk c t Hl) as El.
    split_and!; try done.
    + intros s. transitivity (lkz (set_l c t (fresh_lstate e fwd rep t)) s); [done|]. rewrite lkz_set by done.
      destruct (decide (s = t)) as [->|]; done.
    + exists (fresh_lstate e fwd rep t). cbn. by rewrite lookup_insert.
    + intros s. change (lz (set_l c t (fresh_lstate e fwd rep t)) s <-> s = t \/ lz c s). by apply lz_set.
Qed.
Lemma LGetState_VI ex c m t : VI ex c m -> (t < N)%nat -> VI ex (LGetState e fwd rep c t) m.
Proof using All.
  intros I Ht. destruct (LGetState_lk c t) as (A1&A2&A3&A4&A5&A6). apply (VI_same ex c); try done.
  - destruct (lz_dec c t) as [Hl|Hl]; [rewrite A5 by done; apply I|]. rewrite A6 by done. apply rp_idx; [apply I|].
    destruct (m !! t) eqn:Em; [|done]. exfalso. apply Hl. by apply (v_m _ _ _ I t).
  - unfold LGetState. destruct (lRep (default new_lstate (kSt c !! t)) =? rep) eqn:Er.
    + apply vrep_set; [apply (v_rep _ _ _ I)|lia].
    + change (vrep (set_l c t (fresh_lstate e fwd rep t))). apply vrep_set; [apply (v_rep _ _ _ I)|done].
  - intros s Hs. apply A3 in Hs as [->|Hs]; [done|by apply I].
  - intros s Hs. apply A3. by right.
Qed.

Lemma lval_zval ex c m x t : VI ex c m -> x ∈ ls c t -> lval (kSt c) x = zval c x.
Proof using. clear HG HsN HgN Hrep.
  intros I Hx. destruct (v_list _ _ _ I t x Hx) as (_&A1&A2&_). unfold lval, zval.
  rewrite (lz_lk c (lePar x)) by (apply fin_lz; auto). pose proof (v_rng _ _ _ I (lePar x)).
  unfold u32. apply Z.mod_small. unfold INFINITECOST in *. lia.
Qed.

(** Giving state [t] a new best parent, new lazy list and a g-value below its v-value, and putting it where it belongs. *)
Definition upd (a : lstate) (gn : Z) (p : nat) (l : list lelem) (b : bool) : lstate :=
  mkL (lV a) gn (lH a) (lClosed a) (lRep a) (Some p) (lExp a) (lInc a) l b.
Definition frame (c c' : lcore) (t : nat) : Prop :=
  (forall u, u <> t -> lkz c' u = lkz c u) /\ v c' t = v c t /\ cl c' t = cl c t /\ xp c' t = xp c t /\ (forall u, lz c u -> lz c' u).
Lemma frame_v c c' t u : frame c c' t -> v c' u = v c u.
Proof. intros (F1&F2&_). destruct (decide (u = t)) as [->|Hn]; [done|by rewrite F1]. Qed.
Lemma frame_cl c c' t u : frame c c' t -> cl c' u = cl c u.
Proof. intros (F1&_&F2&_). destruct (decide (u = t)) as [->|Hn]; [done|by rewrite F1]. Qed.
Lemma frame_xp c c' t u : frame c c' t -> xp c' u = xp c u.
Proof. intros (F1&_&_&F2&_). destruct (decide (u = t)) as [->|Hn]; [done|by rewrite F1]. Qed.
Lemma frame_zval c c' t x : frame c c' t -> zval c' x = zval c x.
Proof. intros F. unfold zval. by rewrite (frame_v _ _ _ _ F). Qed.
Lemma frame_trans c c1 c2 t : frame c c1 t -> frame c1 c2 t -> frame c c2 t.
Proof.
  intros (A1&A2&A3&A4&A5) (B1&B2&B3&B4&B5). split_and!; try congruence; auto. intros u Hu. rewrite B1, A1 by done. done.
Qed.

Lemma VI_upd ex c m t gn p l b : VI ex c m -> ex = None \/ ex = Some t -> lz c t -> t <> start -> 0 <= gn < v c t ->
  (b = true -> l = []) ->
  okslot c t (Some p) gn b -> (forall x, x ∈ l -> oklist c t x) ->
  exists c' m', putStateInHeap eps iter (set_l c t (upd (lkz c t) gn p l b)) t = Ok c' /\
    m' = (if decide (cl c t = iter) then m else <[t := fkey eps gn (hr t)]> m) /\ VI None c' m' /\ frame c c' t /\
    g c' t = gn /\ bp c' t = Some p /\ ls c' t = l /\ tr c' t = b.
Proof using All.
  intros I Hex Hlz Hts Hgn Hb Hok Hl. set (a' := upd (lkz c t) gn p l b). set (c1 := set_l c t a').
  assert (lRep a' = rep) as Ha' by apply lkz_rep.
  pose proof (v_rng _ _ _ I) as Hrng.
  assert (lz c1 t) as Hlz1 by (apply lz_set; [done|by left]).
  assert (lkz c1 t = a') as El1 by (unfold c1; rewrite lkz_set by done; by rewrite decide_True).
  assert (forall u, u <> t -> lkz c1 u = lkz c u) as El2 by (intros; unfold c1; rewrite lkz_set by done; by rewrite decide_False).
  assert (frame c c1 t) as F1.
  { split_and!; try done; try (by rewrite El1). intros u Hu. apply lz_set; [done|by right]. }
  unfold putStateInHeap. rewrite (lz_rd c1 t Hlz1), El1. cbn [obind a' upd lClosed lG lH].
  (* the common part *)
  assert (forall c' m', (forall u, u <> t -> lkz c' u = lkz c u) -> lV (lkz c' t) = lV a' -> lG (lkz c' t) = lG a' -> lH (lkz c' t) = lH a' ->
    lClosed (lkz c' t) = lClosed a' -> lBest (lkz c' t) = lBest a' -> lExp (lkz c' t) = lExp a' -> lList (lkz c' t) = lList a' ->
    lTrue (lkz c' t) = lTrue a' -> (forall u, lz c' u <-> u = t \/ lz c u) -> vrep c' -> rp (kOpen c') m' ->
    (forall u, u <> t -> m' !! u = m !! u) -> (forall u, u <> t -> u ∈ kInc c' <-> u ∈ kInc c) -> NoDup (kInc c') ->
    (is_Some (m' !! t) /\ cl c t <> iter /\ m' !! t = Some (fkey eps gn (hr t)) /\ t ∉ kInc c' /\ lInc (lkz c' t) = false \/
     m' !! t = None /\ cl c t = iter /\ t ∈ kInc c' /\ lInc (lkz c' t) = true) ->
    VI None c' m' /\ frame c c' t /\ g c' t = gn /\ bp c' t = Some p /\ ls c' t = l /\ tr c' t = b) as Hcommon.
  { intros c' m' Hoth HV HGG HH HC HB HX HL HT Hlz' Hvr Hrp Hm Hz' Hnd Hcase.
    assert (frame c c' t) as F. { split_and!; try done. intros u Hu. apply Hlz'. by right. }
    split; [|split_and!; done].
    assert (forall u, v c' u = v c u) as Fv by (intros; by apply (frame_v _ _ t)).
    assert (forall u, cl c' u = cl c u) as Fc by (intros; by apply (frame_cl _ _ t)).
    assert (forall u, xp c' u = xp c u) as Fx by (intros; by apply (frame_xp _ _ t)).
    assert (forall x, zval c' x = zval c x) as Fz by (intros; by apply (frame_zval _ _ t)).
    split; try done.
    - intros s Hs. apply Hlz' in Hs as [->|Hs]; [by apply (v_dom _ _ _ I)|by apply (v_dom _ _ _ I)].
    - intros s. rewrite Fv. split; [|apply Hrng]. destruct (decide (s = t)) as [->|Hn]; [rewrite HGG; cbn; pose proof (Hrng t); lia|rewrite Hoth by done; apply Hrng].
    - intros s. destruct (decide (s = t)) as [->|Hn]; [rewrite HH|rewrite Hoth by done]; apply (v_h _ _ _ I).
    - intros s. rewrite Fv. destruct (decide (s = t)) as [->|Hn]; [intros _; right; destruct Hcase as [?|?]; [left|right]; tauto|].
      rewrite Hoth by done. intros Hs. destruct (v_in _ _ _ I s Hs) as [He|[He|He]].
      + exfalso. destruct Hex as [Hex|Hex]; congruence.
      + right. left. by rewrite Hm.
      + right. right. by apply Hz'.
    - intros s Hs. rewrite Fv, Fc. destruct (decide (s = t)) as [->|Hn].
      + destruct Hcase as [Hc|Hc]; [|destruct Hc as [Hc _]; rewrite Hc in Hs; by destruct Hs]. rewrite HGG. cbn. split_and!; [left; lia|tauto|done|].
        apply Hlz'. by left.
      + rewrite Hm in Hs by done. rewrite Hoth by done. destruct (v_m _ _ _ I s Hs) as (?&?&?&?). split_and!; try done. apply Hlz'. by right.
    - intros s Hs. rewrite Fv, Fc. destruct (decide (s = t)) as [->|Hn].
      + rewrite HGG. cbn. destruct Hcase as [Hc|Hc]; [tauto|]. split; [lia|tauto].
      + rewrite Hoth by done. apply (v_z _ _ _ I). by apply Hz'.
    - intros s. destruct (decide (s = t)) as [->|Hn].
      + destruct Hcase as [Hc|Hc]; [destruct Hc as (_&_&_&Hc1'&Hc2'); rewrite Hc2'; split; [done|tauto]|destruct Hc as (_&_&?&->); tauto].
      + rewrite Hoth by done. rewrite Hz' by done. apply (v_flag _ _ _ I).
    - intros s. rewrite Fv, Fc. apply (v_closed _ _ _ I).
    - intros s. rewrite Fc. apply (v_cl _ _ _ I).
    - rewrite Fc. apply (v_goal _ _ _ I).
    - apply Hlz'. right. apply (v_lz _ _ _ I).
    - rewrite Hoth by done. apply (v_start _ _ _ I).
    - intros u. destruct (decide (u = t)) as [->|Hn]; [rewrite HT, HL; exact Hb|rewrite Hoth by done; apply (v_true _ _ _ I)].
    - intros u Hu. destruct (decide (u = t)) as [->|Hn].
      + intros _. rewrite HB, HT, HGG. apply (okslot_ext c); [|done]. intros; by rewrite Fv.
      + rewrite Hoth by done. intros Hg. apply (okslot_ext c); [intros; by rewrite Fv|]. by apply (v_slot _ _ _ I).
    - intros u x Hx. apply (oklist_ext c); [intros; by rewrite Fv|done|].
      destruct (decide (u = t)) as [->|Hn]; [rewrite HL in Hx; by apply Hl|rewrite Hoth in Hx by done; by apply (v_list _ _ _ I)].
    - intros s. rewrite Fv, Fx. intros Hs Hss. destruct (v_back _ _ _ I s Hs Hss) as (b'&Hb'&?). exists b'. split; [|done].
      apply (okslot_ext c); [intros; by rewrite Fv|done].
    - intros s. rewrite Fv. destruct (decide (s = t)) as [->|Hn]; [rewrite HGG; cbn; left; lia|rewrite Hoth by done; apply (v_tr _ _ _ I)].
    - intros s. rewrite Fv. destruct (decide (s = t)) as [->|Hn]; [rewrite HGG; cbn; lia|rewrite Hoth by done; apply (v_over _ _ _ I)].
    - intros s. rewrite Fv, Fx. apply (v_xp _ _ _ I).
    - intros s k Hk. destruct (decide (s = t)) as [->|Hn].
      + rewrite HGG. cbn. destruct Hcase as [Hc|Hc]; [destruct Hc as (_&_&Hc&_); congruence|destruct Hc as [Hc _]; congruence].
      + rewrite Hm in Hk by done. rewrite Hoth by done. by apply (v_key _ _ _ I). }
  destruct (lClosed (lkz c t) =? iter) eqn:Ec; cbn [negb].
  - assert (cl c t = iter) as Ec' by lia. rewrite decide_True by done.
    assert (m !! t = None) as Hmt. { destruct (m !! t) eqn:Em; [|done]. exfalso. by destruct (v_m _ _ _ I t) as (_&?&_); [eauto|]. }
    change (lInc a') with (lInc (lkz c t)). destruct (lInc (lkz c t)) eqn:Ei; cbn [negb].
    + exists c1, m. split; [done|]. split; [done|].
      apply Hcommon; try done; try (by rewrite El1).
      * intros u. by apply lz_set.
      * apply vrep_set; [apply (v_rep _ _ _ I)|done].
      * apply I.
      * apply I.
      * right. rewrite El1. split_and!; try done. by apply (v_flag _ _ _ I).
    + eexists _, m. split; [reflexivity|]. split; [done|].
      set (a2 := mkL _ _ _ _ _ _ _ true _ _).
      assert (forall u, lkz (mkLC (<[t := a2]> (kSt c1)) (kOpen c1) (t :: kInc c1)) u = if decide (u = t) then a2 else lkz c u) as HL2.
      { intros u. transitivity (lkz (set_l c1 t a2) u); [done|]. rewrite lkz_set by apply lkz_rep. destruct (decide (u = t)); [done|by apply El2]. }
      assert (t ∉ kInc c) as Htz by (rewrite <- (v_flag _ _ _ I t), Ei; done).
      apply Hcommon; try (by rewrite HL2, decide_True by done).
      * intros u Hu. by rewrite HL2, decide_False.
      * intros u. change (lz (set_l c1 t a2) u <-> u = t \/ lz c u). rewrite lz_set by apply lkz_rep. unfold c1. rewrite lz_set by done. tauto.
      * change (vrep (set_l c1 t a2)). apply vrep_set; [|apply lkz_rep]. apply vrep_set; [apply (v_rep _ _ _ I)|done].
      * apply I.
      * done.
      * intros u Hu. cbn. rewrite elem_of_cons. tauto.
      * cbn. apply NoDup_cons. split; [done|apply I].
      * right. rewrite HL2, decide_True by done. split_and!; try done. cbn. rewrite elem_of_cons. by left.
  - assert (cl c t <> iter) as Ec' by lia. rewrite decide_False by done.
    destruct (rp_set (kOpen c1) m t (fkey eps gn (lH (lkz c t)))) as (h'&Eh&Rh); [apply I|by eapply VI_room|]. rewrite Eh. cbn [llift obind].
    rewrite (v_h _ _ _ I) in Rh.
    assert (t ∉ kInc c) as Htz. { intros Ht. by destruct (v_z _ _ _ I t Ht). }
    eexists _, _. split; [reflexivity|]. split; [reflexivity|].
    assert (forall u, lkz (mkLC (kSt c1) h' (kInc c1)) u = if decide (u = t) then a' else lkz c u) as HL2.
    { intros u. transitivity (lkz c1 u); [done|]. destruct (decide (u = t)) as [->|Hn]; [done|by apply El2]. }
    apply Hcommon; try done; try (by rewrite HL2, decide_True by done).
    + intros u. change (lz c1 u <-> u = t \/ lz c u). by apply lz_set.
    + change (vrep c1). apply vrep_set; [apply (v_rep _ _ _ I)|done].
    + intros u Hu. by rewrite lookup_insert_ne.
    + apply I.
    + left. rewrite lookup_insert, HL2, decide_True by done. split_and!; try done. cbn.
      destruct (lInc (lkz c t)) eqn:Ei; [|done]. exfalso. by apply Htz, (v_flag _ _ _ I).
Qed.

(** What insertLazyList does. *)
Inductive ins_case (c c' : lcore) (t p : nat) (cost : Z) (b : bool) : Prop :=
| ic_v : (forall u, lkz c' u = lkz c u) -> v c t <= v c p + cost -> ins_case c c' t p cost b
| ic_g : (forall u, lkz c' u = lkz c u) -> g c t <= v c p + cost -> tr c t = true -> ins_case c c' t p cost b
| ic_push : frame c c' t -> g c t <= v c p + cost < v c t -> tr c t = false ->
    g c' t = g c t -> bp c' t = bp c t -> tr c' t = false -> ls c' t ≡ₚ mkLE p cost b :: ls c t ->
    (hord (zval c) (ls c t) -> hord (zval c) (ls c' t)) -> ins_case c c' t p cost b
| ic_new : frame c c' t -> v c p + cost < g c t -> v c p + cost < v c t ->
    g c' t = v c p + cost -> bp c' t = Some p -> tr c' t = b ->
    (b = true -> ls c' t = []) ->
    (b = false -> v c t <= g c t -> ls c' t = ls c t) ->
    (b = false -> g c t < v c t -> exists q, bp c t = Some q /\ ls c' t ≡ₚ mkLE q (g c t - v c q) (tr c t) :: ls c t) ->
    (hord (zval c) (ls c t) -> hord (zval c) (ls c' t)) -> ins_case c c' t p cost b.

Lemma VI_push c m t x : VI None c m -> lz c t -> tr c t = false -> oklist c t x -> g c t < v c t ->
  let c' := set_l c t (mkL (v c t) (g c t) (lH (lkz c t)) (cl c t) (lRep (lkz c t)) (bp c t) (xp c t) (lInc (lkz c t))
                           (pq_push (lval (kSt c)) (ls c t) x) false) in
  VI None c' m /\ frame c c' t /\ g c' t = g c t /\ bp c' t = bp c t /\ tr c' t = false /\ ls c' t = pq_push (lval (kSt c)) (ls c t) x.
Proof using All.
  intros I Hlz Ht Hx Hgv c'. set (a' := mkL _ _ _ _ _ _ _ _ _ _) in c'.
  assert (lRep a' = rep) as Ha' by apply lkz_rep.
  assert (lkz c' t = a') as El1 by (unfold c'; rewrite lkz_set by done; by rewrite decide_True).
  assert (forall u, u <> t -> lkz c' u = lkz c u) as El2 by (intros; unfold c'; rewrite lkz_set by done; by rewrite decide_False).
  assert (forall u, lz c' u <-> u = t \/ lz c u) as Hlz' by (intros; by apply lz_set).
  assert (frame c c' t) as F.
  { split_and!; try done; try (by rewrite El1). intros u Hu. apply Hlz'. by right. }
  assert (forall u, v c' u = v c u) as Fv by (intros; by apply (frame_v _ _ t)).
  assert (forall u, v c' u <= v c u) as Fv' by (intros; rewrite Fv; lia).
  assert (forall u, cl c' u = cl c u) as Fc by (intros; by apply (frame_cl _ _ t)).
  assert (forall u, xp c' u = xp c u) as Fx by (intros; by apply (frame_xp _ _ t)).
  assert (forall u, g c' u = g c u) as Fg by (intros u; destruct (decide (u = t)) as [->|Hn]; [by rewrite El1|by rewrite El2]).
  assert (forall u, bp c' u = bp c u) as Fb by (intros u; destruct (decide (u = t)) as [->|Hn]; [by rewrite El1|by rewrite El2]).
  assert (forall u, tr c' u = tr c u) as Ft by (intros u; destruct (decide (u = t)) as [->|Hn]; [by rewrite El1|by rewrite El2]).
  assert (forall u, lInc (lkz c' u) = lInc (lkz c u)) as Fi by (intros u; destruct (decide (u = t)) as [->|Hn]; [by rewrite El1|by rewrite El2]).
  split; [|split_and!; try done; try (by rewrite El1)].
  split; try (intros; rewrite ?Fv, ?Fc, ?Fx, ?Fg, ?Fb, ?Ft, ?Fi in *; first [by apply (v_heap _ _ _ I)|by apply (v_rng _ _ _ I)|
    by apply (v_in _ _ _ I)|by apply (v_z _ _ _ I)|by apply (v_nodup _ _ _ I)|by apply (v_flag _ _ _ I)|by apply (v_closed _ _ _ I)|
    by apply (v_cl _ _ _ I)|by apply (v_goal _ _ _ I)|by apply (v_start _ _ _ I)|by apply (v_key _ _ _ I)|by apply (v_over _ _ _ I)|by apply (v_tr _ _ _ I)|by apply (v_xp _ _ _ I)]).
  - apply vrep_set; [apply (v_rep _ _ _ I)|done].
  - intros s Hs. apply Hlz' in Hs as [->|Hs]; by apply (v_dom _ _ _ I).
  - intros s. destruct (decide (s = t)) as [->|Hn]; [rewrite El1|rewrite El2 by done]; apply (v_h _ _ _ I).
  - intros s Hs. rewrite Fv, Fg, Fc. destruct (v_m _ _ _ I s Hs) as (?&?&?&?). split_and!; try done. apply Hlz'. by right.
  - apply Hlz'. right. apply (v_lz _ _ _ I).
  - intros u. rewrite Ft. intros Hu. destruct (decide (u = t)) as [->|Hn]; [congruence|]. rewrite El2 by done. by apply (v_true _ _ _ I).
  - intros u. rewrite Fg, Fb, Ft. intros. apply (okslot_ext c); [done|]. by apply (v_slot _ _ _ I).
  - intros u y Hy. apply (oklist_ext c); try done. destruct (decide (u = t)) as [->|Hn].
    + rewrite El1 in Hy. cbn in Hy. rewrite pq_push_perm in Hy. apply elem_of_cons in Hy as [->|Hy]; [done|by apply (v_list _ _ _ I)].
    + rewrite El2 in Hy by done. by apply (v_list _ _ _ I).
  - intros s. rewrite Fv, Fx. intros H1 H2. destruct (v_back _ _ _ I s H1 H2) as (b&?&?). exists b. split; [|done]. by apply (okslot_ext c).
  - intros s [=].
Qed.

Lemma lval_push c m t x : VI None c m -> oklist c t x -> 
  pq_push (lval (kSt c)) (ls c t) x ≡ₚ x :: ls c t /\ (hord (zval c) (ls c t) -> hord (zval c) (pq_push (lval (kSt c)) (ls c t) x)).
Proof using All.
  intros I Hx. split; [apply pq_push_perm|]. intros Ho.
  assert (forall y, y ∈ ls c t -> lval (kSt c) y = zval c y) as Hl by (intros; by eapply lval_zval).
  assert (lval (kSt c) x = zval c x) as Hlx.
  { destruct Hx as (_&A1&A2&_). unfold lval, zval. rewrite (lz_lk c (lePar x)) by (apply fin_lz; auto). pose proof (v_rng _ _ _ I (lePar x)).
    unfold u32. apply Z.mod_small. unfold INFINITECOST in *. lia. }
  apply (hord_ext (lval (kSt c))).
  - intros y Hy. rewrite pq_push_perm in Hy. apply elem_of_cons in Hy as [->|Hy]; auto.
  - apply pq_push_hord. apply (hord_ext (zval c)); [|done]. intros y Hy. symmetry. auto.
Qed.

Lemma insert_spec c m t p cost b : VI None c m -> lz c t -> p <> goal -> v c p < INFINITECOST -> sl p t cost b ->
  exists c' m', insertLazyList eps iter c t p cost b = Ok c' /\ VI None c' m' /\ ins_case c c' t p cost b.
Proof using All.
  intros I Hlz Hpg Hvp Hsl. pose proof (v_rng _ _ _ I) as Hrng. pose proof (sl_range _ _ _ _ Hsl) as [_ Hc].
  unfold insertLazyList. rewrite (lz_rd c t Hlz), (lz_rd c p) by (apply fin_lz; auto). cbn [obind].
  assert (u32 (v c p + cost) = v c p + cost) as Hu.
  { pose proof (Hrng p). unfold u32. apply Z.mod_small. unfold INFINITECOST in *. lia. }
  rewrite Hu. clear Hu.
  destruct (v c t <=? v c p + cost) eqn:E1; [exists c, m; split_and!; try done; apply ic_v; [done|lia]|].
  assert (oklist c t (mkLE p cost b)) as Hok.
  { split_and!; try done; try (cbn; lia); [unfold zval; cbn; left; lia|]. exists cost. done. }
  assert (t = start -> g c t <= v c p + cost) as Hst.
  { intros ->. rewrite (proj1 (v_start _ _ _ I)). pose proof (Hrng p). lia. }
  destruct (g c t <=? v c p + cost) eqn:E2.
  - destruct (tr c t) eqn:Et; [exists c, m; split_and!; try done; apply ic_g; [done|lia|done]|].
    destruct (VI_push c m t (mkLE p cost b) I Hlz Et Hok ltac:(lia)) as (A1&A2&A3&A4&A5&A6).
    destruct (lval_push c m t (mkLE p cost b) I Hok) as [B1 B2].
    eexists _, m. split; [reflexivity|]. split; [exact A1|]. apply ic_push; try done; try lia; rewrite A6; done.
  - assert (t <> start) as Hts by (intros Ht; specialize (Hst Ht); lia). clear Hst.
    destruct (negb b && (g c t <? v c t)) eqn:E3.
    + assert (b = false) as -> by (destruct b; done). cbn [negb andb] in E3.
      pose proof (Hrng t) as Hrt.
      destruct (v_slot _ _ _ I t Hts ltac:(lia)) as (q&c0&Hq1&Hq2&Hq3&Hq4&Hq5). rewrite Hq1. rewrite (lz_rd c q) by (apply fin_lz; auto). cbn [obind].
      pose proof (sl_range _ _ _ _ Hq4) as [_ Hc0]. pose proof (Hrng q) as Hrq.
      assert (toi32 (g c t - v c q) = g c t - v c q) as Hti.
      { unfold toi32, u32. rewrite Z.mod_small by (unfold INFINITECOST in *; lia). unfold INFINITECOST in *.
        replace (g c t - v c q <? 2147483648) with true by lia. done. }
      rewrite Hti. set (x := mkLE q (g c t - v c q) (tr c t)).
      assert (oklist c t x) as Hx.
      { split_and!; try done; try (cbn; lia); [unfold zval; cbn; left; lia|]. exists c0. cbn. split; [done|lia]. }
      destruct (lval_push c m t x I Hx) as [B1 B2].
      destruct (VI_upd None c m t (v c p + cost) p (pq_push (lval (kSt c)) (ls c t) x) false I) as (c'&m'&E4&_&A1&A2&A3&A4&A5&A6); try done; try (by left).
      * pose proof (Hrng p). lia.
      * exists p, cost. done.
      * intros y Hy. rewrite B1 in Hy. apply elem_of_cons in Hy as [->|Hy]; [done|by apply (v_list _ _ _ I)].
      * exists c', m'. split; [exact E4|]. split; [done|].
        apply ic_new; try done; try lia; try (rewrite A5; done). intros _ _. exists q. rewrite A5. done.
    + cbn [obind]. destruct (VI_upd None c m t (v c p + cost) p (if b then [] else ls c t) b I) as (c'&m'&E4&_&A1&A2&A3&A4&A5&A6); try done; try (by left).
      * pose proof (Hrng p). lia.
      * by destruct b.
      * exists p, cost. done.
      * intros y Hy. destruct b; [by apply elem_of_nil in Hy|by apply (v_list _ _ _ I)].
      * exists c', m'. split; [exact E4|]. split; [done|].
        apply ic_new; try done; try lia; rewrite ?A5.
        -- by intros ->.
        -- intros -> _. done.
        -- intros ->. cbn in E3. lia.
        -- destruct b; [|done]. intros _ i y z _ Hy. by rewrite lookup_nil in Hy.
Qed.

(** ExpandState. *)
Inductive echain (s : nat) : list (nat * Z * bool) -> lcore -> lcore -> Prop :=
| ec_nil c : echain s [] c c
| ec_cons t cost b ns c c1 c2 m m1 : VI None c m -> VI None c1 m1 -> ins_case c c1 t s cost b -> sl s t cost b -> echain s ns c1 c2 ->
    echain s ((t, cost, b) :: ns) c c2.
Lemma ins_case_get c c1 t t0 p cost b : ins_case (LGetState e fwd rep c t0) c1 t p cost b -> ins_case c c1 t p cost b.
Proof using All.
  destruct (LGetState_lk c t0) as (A1&_&A3&_). set (c0 := LGetState e fwd rep c t0) in *.
  assert (forall x, zval c0 x = zval c x) as Hzv by (intros; unfold zval; by rewrite A1).
  assert (frame c0 c1 t -> frame c c1 t) as HF.
  { intros (F1&F2&F3&F4&F5). rewrite A1 in F2, F3, F4. split_and!; try done; [intros u Hu; rewrite F1 by done; apply A1|]. intros u Hu. apply F5, A3. by right. }
  assert (forall l, hord (zval c) l -> hord (zval c0) l) as Ho1 by (intros l; apply hord_ext; done).
  assert (forall l, hord (zval c0) l -> hord (zval c) l) as Ho2 by (intros l; apply hord_ext; done).
  intros [H1 H2|H1 H2 H3|H1 H2 H3 H4 H5 H6 H7 H8|H1 H2 H3 H4 H5 H6 H7 H8 H9 H10]; rewrite ?A1 in *.
  - apply ic_v; [|done]. intros u. by rewrite H1.
  - apply ic_g; [|done..]. intros u. by rewrite H1.
  - apply ic_push; auto.
  - apply ic_new; auto. intros Hb Hg. specialize (H9 Hb Hg). destruct H9 as (q&?&H9). exists q. rewrite A1 in H9. done.
Qed.
Lemma ins_case_v c c' t p cost b u : ins_case c c' t p cost b -> v c' u = v c u.
Proof. intros [H1 H2|H1 H2 H3|H1 H2 H3 H4 H5 H6 H7 H8|H1 H2 H3 H4 H5 H6 H7 H8 H9 H10]; first [by rewrite H1|by apply (frame_v _ _ t)]. Qed.
Lemma ins_case_cl c c' t p cost b u : ins_case c c' t p cost b -> cl c' u = cl c u.
Proof. intros [H1 H2|H1 H2 H3|H1 H2 H3 H4 H5 H6 H7 H8|H1 H2 H3 H4 H5 H6 H7 H8 H9 H10]; first [by rewrite H1|by apply (frame_cl _ _ t)]. Qed.
Lemma ins_case_oth c c' t p cost b u : ins_case c c' t p cost b -> u <> t -> lkz c' u = lkz c u.
Proof. intros [H1 H2|H1 H2 H3|H1 H2 H3 H4 H5 H6 H7 H8|H1 H2 H3 H4 H5 H6 H7 H8 H9 H10] Hn; first [by rewrite H1|by apply H1]. Qed.

Lemma expand_all_spec s ns : forall c m, VI None c m -> s <> goal -> v c s < INFINITECOST -> (forall x, x ∈ ns -> x ∈ nb s) ->
  exists c' m', expand_all e fwd eps iter rep s ns c = Ok c' /\ VI None c' m' /\ echain s ns c c'.
Proof using All.
  induction ns as [|[[t cost] b] ns IH]; intros c m I Hs Hv Hns; cbn [expand_all].
  { exists c, m. split_and!; try done. constructor. }
  assert ((t, cost, b) ∈ nb s) as Hin by (apply Hns, elem_of_cons; by left).
  assert (sl s t cost b) as Hsl. { destruct b; cbn; [by left|done]. }
  destruct (LGetState_lk c t) as (A1&A2&A3&_).
  destruct (insert_spec (LGetState e fwd rep c t) m t s cost b) as (c1&m1&E1&I1&C1); try done; [|by rewrite A1|].
  { apply LGetState_VI; [done|]. by apply (sl_range _ _ _ _ Hsl). }
  rewrite E1. cbn [obind]. apply ins_case_get in C1.
  destruct (IH c1 m1 I1 Hs) as (c2&m2&E2&I2&C2).
  - by rewrite (ins_case_v _ _ _ _ _ _ _ C1).
  - intros x Hx. apply Hns, elem_of_cons. by right.
  - exists c2, m2. split_and!; try done. by apply (ec_cons s t cost b ns c c1 c2 m m1).
Qed.

(** The minimum of the heap is taken. *)
Lemma VI_pop c m s h' : VI None c m -> is_Some (m !! s) -> rp h' (delete s m) -> VI (Some s) (mkLC (kSt c) h' (kInc c)) (delete s m).
Proof.
  intros I Hms Hr. assert (forall u, lkz (mkLC (kSt c) h' (kInc c)) u = lkz c u) as HL by done.
  destruct I. split; try done.
  - intros u Hu. destruct (decide (u = s)) as [->|Hn]; [by left|right]. rewrite lookup_delete_ne by done. by destruct (v_in0 u Hu) as [?|?].
  - intros u Hu. destruct (decide (u = s)) as [->|Hn]; [rewrite lookup_delete in Hu; by destruct Hu|]. rewrite lookup_delete_ne in Hu by done.
    destruct (v_m0 u Hu) as (?&?&?&?). split_and!; try done. congruence.
  - intros u k Hk. destruct (decide (u = s)) as [->|Hn]; [by rewrite lookup_delete in Hk|]. rewrite lookup_delete_ne in Hk by done. by apply v_key0.
  - intros u [= <-]. split; [apply lookup_delete|]. by apply (v_m0 s).
Qed.

Definition exp1 (c c1 : lcore) (s : nat) : Prop :=
  (forall u, u <> s -> lkz c1 u = lkz c u) /\ v c1 s = g c s /\ g c1 s = g c s /\ cl c1 s = iter /\ bp c1 s = bp c s /\ xp c1 s = bp c s /\
  ls c1 s = ls c s /\ tr c1 s = tr c s.
Lemma VI_exp c m s : VI (Some s) c m -> late = false -> lz c s -> tr c s = true -> g c s < v c s -> s <> goal ->
  let c1 := set_l c s (mkL (g c s) (g c s) (lH (lkz c s)) iter (lRep (lkz c s)) (bp c s) (bp c s) (lInc (lkz c s)) (ls c s) true) in
  VI None c1 m /\ exp1 c c1 s.
Proof using All.
  intros I Hlate Hlz Ht Hgv Hsg. rewrite <- Ht. intros c1. set (a' := mkL _ _ _ _ _ _ _ _ _ _) in c1.
  assert (lRep a' = rep) as Ha' by apply lkz_rep.
  assert (lkz c1 s = a') as El1 by (unfold c1; rewrite lkz_set by done; by rewrite decide_True).
  assert (forall u, u <> s -> lkz c1 u = lkz c u) as El2 by (intros; unfold c1; rewrite lkz_set by done; by rewrite decide_False).
  assert (forall u, lz c1 u <-> u = s \/ lz c u) as Hlz' by (intros; by apply lz_set).
  assert (forall u, v c1 u <= v c u) as Fv' by (intros u; destruct (decide (u = s)) as [->|Hn]; [rewrite El1; cbn; lia|rewrite El2 by done; lia]).
  assert (cl c s <> iter) as Hncl.
  { by apply (v_exn _ _ _ I s). }
  pose proof (v_rng _ _ _ I) as Hrng.
  split; [|split_and!; try done; by rewrite El1, ?Ht].
  split; try done.
  - apply (v_heap _ _ _ I).
  - apply vrep_set; [apply (v_rep _ _ _ I)|done].
  - intros u Hu. apply Hlz' in Hu as [->|Hu]; by apply (v_dom _ _ _ I).
  - intros u. destruct (decide (u = s)) as [->|Hn]; [rewrite El1; cbn; pose proof (Hrng s); lia|rewrite El2 by done; apply Hrng].
  - intros u. destruct (decide (u = s)) as [->|Hn]; [rewrite El1|rewrite El2 by done]; apply (v_h _ _ _ I).
  - intros u. destruct (decide (u = s)) as [->|Hn]; [rewrite El1; cbn; lia|rewrite El2 by done]. intros Hu.
    destruct (v_in _ _ _ I u Hu) as [?|?]; [congruence|by right].
  - intros u Hu. destruct (v_m _ _ _ I u Hu) as (?&?&Hne&?). rewrite El2 by congruence. split_and!; try done. apply Hlz'. by right.
  - intros u Hu. assert (u <> s) as Hn by (intros ->; by destruct (v_z _ _ _ I s Hu)). rewrite El2 by done. by apply (v_z _ _ _ I).
  - apply (v_nodup _ _ _ I).
  - intros u. destruct (decide (u = s)) as [->|Hn]; [rewrite El1|rewrite El2 by done]; apply (v_flag _ _ _ I).
  - intros u. destruct (decide (u = s)) as [->|Hn]; [rewrite El1; cbn; pose proof (Hrng s); lia|rewrite El2 by done; apply (v_closed _ _ _ I)].
  - intros u. destruct (decide (u = s)) as [->|Hn]; [rewrite El1; cbn; lia|rewrite El2 by done; apply (v_cl _ _ _ I)].
  - rewrite El2 by done. apply (v_goal _ _ _ I).
  - apply Hlz'. right. apply (v_lz _ _ _ I).
  - pose proof (v_start _ _ _ I) as Hst. destruct (decide (start = s)) as [He|Hn]; [|by rewrite El2].
    rewrite He in Hst |- *. rewrite El1. exact Hst.
  - intros u. destruct (decide (u = s)) as [->|Hn]; [rewrite El1|rewrite El2 by done]; apply (v_true _ _ _ I).
  - intros u Hu1 Hu2. apply (okslot_ext c); [done|].
    destruct (decide (u = s)) as [->|Hn]; [rewrite El1 in *|rewrite El2 in * by done]; by apply (v_slot _ _ _ I).
  - intros u x Hx. destruct (decide (u = s)) as [->|Hn].
    + rewrite El1 in Hx. cbn in Hx. rewrite (v_true _ _ _ I s Ht) in Hx. by apply elem_of_nil in Hx.
    + apply (oklist_ext c); [done|by rewrite El2|]. rewrite El2 in Hx by done. by apply (v_list _ _ _ I).
  - intros u. destruct (decide (u = s)) as [->|Hn]; [rewrite El1|rewrite El2 by done]; intros H1 H2.
    + exists true. split; [|done]. apply (okslot_ext c); [done|]. cbn. rewrite <- Ht. apply (v_slot _ _ _ I); done.
    + destruct (v_back _ _ _ I u H1 H2) as (b&?&?). exists b. split; [|done]. by apply (okslot_ext c).
  - intros u. destruct (decide (u = s)) as [->|Hn]; [rewrite El1; cbn; congruence|rewrite El2 by done; apply (v_tr _ _ _ I)].
  - intros u. destruct (decide (u = s)) as [->|Hn]; [rewrite El1; cbn; lia|rewrite El2 by done; apply (v_over _ _ _ I)].
  - intros u. destruct (decide (u = s)) as [->|Hn]; [rewrite El1; cbn; pose proof (Hrng s); lia|rewrite El2 by done; apply (v_xp _ _ _ I)].
  - intros u k Hk. assert (u <> s) as Hn by (intros ->; destruct (v_exn _ _ _ I s eq_refl); congruence). rewrite El2 by done. by apply (v_key _ _ _ I).
Qed.

(** getNextLazyElement. *)
Inductive gn_case (c c1 : lcore) (s : nat) : Prop :=
| gn_nil : frame c c1 s -> ls c s = [] -> g c1 s = INFINITECOST -> bp c1 s = None -> tr c1 s = true -> ls c1 s = [] -> gn_case c c1 s
| gn_some x l l' : frame c c1 s -> ls c s = x :: l -> g c1 s = zval c x -> bp c1 s = Some (lePar x) -> tr c1 s = leTrue x ->
    ls c1 s = (if leTrue x then [] else l') -> x :: l' ≡ₚ x :: l -> (hord (zval c) (x :: l) -> hord (zval c) l') -> gn_case c c1 s.
Lemma getNext_spec c m s : late = false -> VI (Some s) c m -> lz c s -> tr c s = false -> s <> start -> g c s < v c s ->
  exists c1 m1, getNextLazyElement eps iter c s = Ok c1 /\ VI None c1 m1 /\ gn_case c c1 s.
Proof using All.
  intros Hlate I Hlz Ht Hss Hgv. pose proof (v_rng _ _ _ I) as Hrng. unfold getNextLazyElement. rewrite (lz_rd c s Hlz). cbn [obind].
  destruct (ls c s) as [|x l] eqn:El.
  - eexists _, m. split; [reflexivity|]. set (c1 := set_l _ _ _).
    set (a' := mkL _ _ _ _ _ _ _ _ _ _) in c1.
    assert (lRep a' = rep) as Ha' by apply lkz_rep.
    assert (lkz c1 s = a') as El1 by (unfold c1; rewrite lkz_set by done; by rewrite decide_True).
    assert (forall u, u <> s -> lkz c1 u = lkz c u) as El2 by (intros; unfold c1; rewrite lkz_set by done; by rewrite decide_False).
    assert (forall u, lz c1 u <-> u = s \/ lz c u) as Hlz' by (intros; by apply lz_set).
    assert (frame c c1 s) as F.
    { split_and!; try done; try (by rewrite El1). intros u Hu. apply Hlz'. by right. }
    assert (forall u, v c1 u = v c u) as Fv by (intros; by apply (frame_v _ _ s)).
    assert (forall u, v c1 u <= v c u) as Fv' by (intros; rewrite Fv; lia).
    assert (forall u, cl c1 u = cl c u) as Fc by (intros; by apply (frame_cl _ _ s)).
    assert (forall u, xp c1 u = xp c u) as Fx by (intros; by apply (frame_xp _ _ s)).
    split; [|apply gn_nil; try done; by rewrite El1].
    split; try done; try (intros; rewrite ?Fv, ?Fc, ?Fx in *; first [by apply (v_heap _ _ _ I)|by apply (v_nodup _ _ _ I)|by apply (v_closed _ _ _ I)|
      by apply (v_cl _ _ _ I)|by apply (v_goal _ _ _ I)|by apply (v_xp _ _ _ I)]).
    + apply vrep_set; [apply (v_rep _ _ _ I)|done].
    + intros u Hu. apply Hlz' in Hu as [->|Hu]; by apply (v_dom _ _ _ I).
    + intros u. rewrite Fv. destruct (decide (u = s)) as [->|Hn]; [rewrite El1; cbn; pose proof (Hrng s); lia|rewrite El2 by done; apply Hrng].
    + intros u. destruct (decide (u = s)) as [->|Hn]; [rewrite El1|rewrite El2 by done]; apply (v_h _ _ _ I).
    + intros u. rewrite Fv. destruct (decide (u = s)) as [->|Hn]; [rewrite El1; cbn; pose proof (Hrng s); lia|rewrite El2 by done]. intros Hu.
      destruct (v_in _ _ _ I u Hu) as [?|?]; [congruence|by right].
    + intros u Hu. rewrite Fv, Fc. destruct (v_m _ _ _ I u Hu) as (?&?&Hne&?). rewrite El2 by congruence. split_and!; try done. apply Hlz'. by right.
    + intros u Hu. rewrite Fv, Fc. assert (u <> s) as Hn. { intros ->. destruct (v_z _ _ _ I s Hu). by destruct (v_exn _ _ _ I s eq_refl). }
      rewrite El2 by done. by apply (v_z _ _ _ I).
    + intros u. destruct (decide (u = s)) as [->|Hn]; [rewrite El1|rewrite El2 by done]; apply (v_flag _ _ _ I).
    + apply Hlz'. right. apply (v_lz _ _ _ I).
    + rewrite El2 by done. apply (v_start _ _ _ I).
    + intros u. destruct (decide (u = s)) as [->|Hn]; [by rewrite El1|rewrite El2 by done; apply (v_true _ _ _ I)].
    + intros u Hu1. destruct (decide (u = s)) as [->|Hn]; [rewrite El1; cbn; lia|]. rewrite El2 by done. intros Hu2. apply (okslot_ext c); [done|]. by apply (v_slot _ _ _ I).
    + intros u x Hx. destruct (decide (u = s)) as [->|Hn]; [rewrite El1 in Hx; by apply elem_of_nil in Hx|].
      apply (oklist_ext c); [done|by rewrite El2|]. rewrite El2 in Hx by done. by apply (v_list _ _ _ I).
    + intros u. rewrite Fv, Fx. intros H1 H2. destruct (v_back _ _ _ I u H1 H2) as (b&?&?). exists b. split; [|done]. by apply (okslot_ext c).
    + intros u. rewrite Fv. destruct (decide (u = s)) as [->|Hn]; [by rewrite El1|rewrite El2 by done; apply (v_tr _ _ _ I)].
    + intros u. rewrite Fv. destruct (decide (u = s)) as [->|Hn]; [by rewrite El1|rewrite El2 by done; apply (v_over _ _ _ I)].
    + intros u k Hk. assert (u <> s) as Hn by (intros ->; destruct (v_exn _ _ _ I s eq_refl); congruence). rewrite El2 by done. by apply (v_key _ _ _ I).
  - assert (x ∈ ls c s) as Hx by (rewrite El; apply elem_of_cons; by left).
    destruct (v_list _ _ _ I s x Hx) as (Hx1&Hx2&Hx3&[Hx4|[_ Hx4]]&c0&Hx5&Hx6); [|congruence].
    rewrite (lz_rd c (lePar x)) by (apply fin_lz; auto). cbn [obind].
    assert (u32 (v c (lePar x) + leCost x) = zval c x) as ->.
    { pose proof (Hrng (lePar x)). unfold u32. apply Z.mod_small. unfold zval, INFINITECOST in *. lia. }
    set (l' := pq_pop (lval (kSt c)) (x :: l)).
    assert (forall y, y ∈ x :: l -> lval (kSt c) y = zval c y) as Hlv by (intros y Hy; rewrite <- El in Hy; by eapply lval_zval).
    destruct (pq_pop_spec (lval (kSt c)) x l) as [P1 P2]. fold l' in P1, P2.
    destruct (VI_upd (Some s) c m s (zval c x) (lePar x) (if leTrue x then [] else l') (leTrue x) I) as (c'&m'&E4&_&A1&A2&A3&A4&A5&A6); try done; try (by right).
    + unfold zval in *. pose proof (Hrng (lePar x)). lia.
    + by intros ->.
    + exists (lePar x), c0. unfold zval. split_and!; try done. lia.
    + intros y Hy. destruct (leTrue x); [by apply elem_of_nil in Hy|]. apply (v_list _ _ _ I). rewrite El.
      rewrite <- P1. apply elem_of_cons. by right.
    + exists c', m'. split; [exact E4|]. split; [done|]. apply (gn_some c c' s x l l'); try done.
      intros Ho. apply (hord_ext (lval (kSt c))).
      * intros y Hy. apply Hlv. rewrite <- P1. apply elem_of_cons. by right.
      * apply P2. apply (hord_ext (zval c)); [|done]. intros y Hy. symmetry. by apply Hlv.
Qed.

Lemma Evaluate_spec c m s : late = false -> VI (Some s) c m -> lz c s -> tr c s = false -> g c s < v c s -> 
  exists p c1 m1 c' m', EvaluateState e fwd eps iter c s = Ok c' /\ bp c s = Some p /\ VI None c1 m1 /\ VI None c' m' /\ gn_case c c1 s /\ p <> goal /\ v c p < INFINITECOST /\
    (tc p s <= 0 /\ c' = c1 \/ 0 < tc p s /\ sl p s (tc p s) true /\ ins_case c1 c' s p (tc p s) true).
Proof using All.
  intros Hlate I Hlz Ht Hgv. pose proof (v_rng _ _ _ I) as Hrng.
  assert (s <> start) as Hss. { intros ->. destruct (v_start _ _ _ I). congruence. }
  unfold EvaluateState. rewrite (lz_rd c s Hlz). cbn [obind].
  destruct (v_slot _ _ _ I s Hss) as (p&c0&Hb&Hp1&Hp2&Hp3&Hp4). { pose proof (Hrng s). lia. }
  rewrite Hb. destruct (getNext_spec c m s Hlate I Hlz Ht Hss Hgv) as (c1&m1&E1&I1&G1). rewrite E1. cbn [obind].
  assert (frame c c1 s) as F by by destruct G1.
  destruct (tc p s >? 0) eqn:Etc.
  - assert (sl p s (tc p s) true) as Hsl. { cbn. right. exists c0. rewrite Ht in Hp3. split_and!; try done. lia. }
    destruct (insert_spec c1 m1 s p (tc p s) true I1) as (c'&m'&E2&I2&C2); try done.
    + by apply F.
    + by rewrite (frame_v _ _ _ _ F).
    + exists p, c1, m1, c', m'. split_and!; try done. right. split_and!; try done. lia.
  - exists p, c1, m1, c1, m1. split_and!; try done. left. split; [lia|done].
Qed.

(** Work left in an iteration. *)
Definition wl (x : lelem) : nat := if leTrue x then 1 else 2.
Definition wt (a : lstate) : nat := (if lTrue a then 1 else 2) + sum_list_with wl (lList a).
Definition mu (c : lcore) (u : nat) : nat := wt (lkz c u) + (if cl c u =? iter then 0 else 1 + 2 * length (nb u)).
Definition Phi (c : lcore) : nat := sum_list_with (mu c) (seq 0 N).
Lemma sum_point (f f' : nat -> nat) t l : NoDup l -> t ∈ l -> (forall u, u <> t -> f' u = f u) ->
  (sum_list_with f' l + f t = sum_list_with f l + f' t)%nat.
Proof using. clear HG HsN HgN Hrep.
  intros Hn Ht Hf. induction Hn as [|x l Hx Hn IH]; [by apply elem_of_nil in Ht|]. cbn.
  apply elem_of_cons in Ht as [->|Ht].
  - assert (sum_list_with f' l = sum_list_with f l) as ->; [|lia].
    clear IH Hn. induction l as [|y l IH]; [done|]. cbn. apply not_elem_of_cons in Hx as [? Hx]. rewrite (Hf y) by congruence. rewrite IH by done. done.
  - specialize (IH Ht). rewrite (Hf x); [lia|]. by intros ->.
Qed.
Lemma Phi_point c c' t : (t < N)%nat -> (forall u, u <> t -> lkz c' u = lkz c u) -> (Phi c' + mu c t = Phi c + mu c' t)%nat.
Proof using. clear HG HsN HgN Hrep.
  intros Ht Hf. unfold Phi. apply sum_point; [apply NoDup_seq|apply elem_of_seq; lia|]. intros u Hu. unfold mu. by rewrite Hf.
Qed.
Lemma wl_perm l l' : l ≡ₚ l' -> sum_list_with wl l = sum_list_with wl l'.
Proof using. clear HG HsN HgN Hrep. induction 1; cbn; lia. Qed.
Lemma ins_wt c c' t p cost b m : VI None c m -> ins_case c c' t p cost b -> (wt (lkz c' t) <= wt (lkz c t) + (if b then 1 else 2))%nat /\
  (b = true -> tr c t = true -> wt (lkz c' t) = wt (lkz c t)) /\ (b = true -> tr c t = false -> (wt (lkz c' t) <= wt (lkz c t) + 1)%nat).
Proof using. clear HG HsN HgN Hrep.
  intros I [H1 H2|H1 H2 H3|H1 H2 H3 H4 H5 H6 H7 H8|H1 H2 H3 H4 H5 H6 H7 H8 H9 H10].
  - rewrite H1. split_and!; intros; lia.
  - rewrite H1. split_and!; intros; lia.
  - unfold wt. rewrite H6, H3, (wl_perm _ _ H7). cbn. assert (wl (mkLE p cost b) = if b then 1%nat else 2%nat) as Hw by done. destruct b; split_and!; intros; try done; lia.
  - unfold wt. rewrite H6. destruct b.
    + rewrite H7 by done. cbn. split_and!; intros; try (destruct (tr c t); lia). rewrite (v_true _ _ _ I t) by done. rewrite H0. done.
    + destruct (decide (g c t < v c t)) as [Hlt|Hge].
      * destruct (H9 eq_refl Hlt) as (q&_&Hq). rewrite (wl_perm _ _ Hq). cbn. assert (wl (mkLE q (g c t - v c q) (tr c t)) = if tr c t then 1%nat else 2%nat) as Hw by done. destruct (tr c t); split_and!; intros; try done; lia.
      * rewrite H8 by (done || lia). destruct (tr c t); split_and!; intros; try done; lia.
Qed.
Lemma echain_Phi s ns c c' : echain s ns c c' -> (Phi c' <= Phi c + 2 * length ns)%nat /\ (forall u, v c' u = v c u) /\ (forall u, cl c' u = cl c u).
Proof using All.
  induction 1 as [c|t cost b ns c c1 c2 m m1 I I1 C Hsl HE (IH&IHv&IHc)]; [split_and!; [lia|done|done]|]. cbn.
  split_and!.
  - assert (t < N)%nat as Ht by by apply (sl_range _ _ _ _ Hsl).
    pose proof (Phi_point c c1 t Ht (fun u Hu => ins_case_oth _ _ _ _ _ _ u C Hu)) as HP.
    destruct (ins_wt c c1 t s cost b m I C) as [W _]. unfold mu in HP. rewrite (ins_case_cl _ _ _ _ _ _ t C) in HP. destruct b; lia.
  - intros u. rewrite IHv. by apply (ins_case_v _ _ _ _ _ _ u C).
  - intros u. rewrite IHc. by apply (ins_case_cl _ _ _ _ _ _ u C).
Qed.
Lemma eval_Phi c m s c1 m1 c' p : VI (Some s) c m -> lz c s -> tr c s = false -> VI None c1 m1 -> gn_case c c1 s ->
  (tc p s <= 0 /\ c' = c1 \/ 0 < tc p s /\ sl p s (tc p s) true /\ ins_case c1 c' s p (tc p s) true) -> (Phi c' < Phi c)%nat.
Proof using All.
  intros I Hlz Ht I1 G C. assert (s < N)%nat as Hs by by apply (v_dom _ _ _ I).
  assert (frame c c1 s) as F by by destruct G.
  assert (wt (lkz c1 s) = 1 /\ tr c1 s = true \/ wt (lkz c1 s) + 2 <= wt (lkz c s) /\ tr c1 s = false)%nat as HW.
  { destruct G as [_ G2 G3 G4 G5 G6|x l l' _ G2 G3 G4 G5 G6 G7 G8].
    - left. unfold wt. by rewrite G5, G6.
    - unfold wt. rewrite G5, G6. destruct (leTrue x) eqn:Ex; [by left|right]. rewrite Ht, G2. split; [|done].
      apply Permutation_cons_inv in G7. rewrite (wl_perm _ _ G7). cbn. assert (wl x = 2%nat) by (unfold wl; by rewrite Ex). lia. }
  assert (2 <= wt (lkz c s))%nat as H2 by (unfold wt; rewrite Ht; lia).
  pose proof (Phi_point c c1 s Hs (proj1 F)) as HP. unfold mu in HP. rewrite (frame_cl _ _ _ s F) in HP.
  destruct C as [[_ ->]|(_&_&C)]; [lia|].
  pose proof (Phi_point c1 c' s Hs (fun u Hu => ins_case_oth _ _ _ _ _ _ u C Hu)) as HP2.
  unfold mu in HP2. rewrite (ins_case_cl _ _ _ _ _ _ s C), (frame_cl _ _ _ s F) in HP2.
  destruct (ins_wt c1 c' s p _ true m1 I1 C) as (_&W1&W2). destruct HW as [[? HW]|[? HW]]; [specialize (W1 eq_refl HW)|specialize (W2 eq_refl HW)]; lia.
Qed.

(** One iteration of the loop of ImprovePath. *)
Definition hh (s : nat) : Z := toint (eps * inject_Z (hr s)).
Lemma hh_rng s : 0 <= hh s < 2147483648.
Proof using All. by apply (toint_nonneg E eps Heps); [apply (gl_heur _ _ _ _ HG)|apply (gl_heurE _ _ _ _ HG)]. Qed.
Lemma hh_goal : hh goal = 0.
Proof using All. unfold hh. rewrite Hz. unfold toint, Qtrunc. cbn. destruct eps as [n d]; cbn. rewrite Z.mul_0_r, Z.quot_0_l by lia. done. Qed.
Lemma v_key0 ex c m s k : VI ex c m -> m !! s = Some k -> k = mkKey (g c s + hh s) 0.
Proof using All.
  intros I Hk. rewrite (v_key _ _ _ I s k Hk). apply fkey_eq; [|apply hh_rng]. apply (v_rng _ _ _ I).
Qed.
Inductive istep (c : lcore) (m : gmap nat ckey) (c' : lcore) : Prop :=
| is_exp s c0 c1 m1 : (exists k, m !! s = Some k) -> (forall u k', m !! u = Some k' -> g c s + hh s <= k0 k') -> g c s + hh s < INFINITECOST -> s <> goal -> tr c s = true ->
    g c s < v c s -> (forall u, lkz c0 u = lkz c u) -> exp1 c0 c1 s -> VI None c1 m1 -> m1 = delete s m -> echain s (nb s) c1 c' -> istep c m c'
| is_eval s c0 m0 p c1 m1 : (exists k, m !! s = Some k) -> tr c s = false -> (forall u, lkz c0 u = lkz c u) -> bp c s = Some p -> v c p < INFINITECOST ->
    VI (Some s) c0 m0 -> VI None c1 m1 -> gn_case c0 c1 s ->
    (tc p s <= 0 /\ c' = c1 \/ 0 < tc p s /\ sl p s (tc p s) true /\ ins_case c1 c' s p (tc p s) true) -> istep c m c'.
Inductive isteps : lcore -> gmap nat ckey -> lcore -> gmap nat ckey -> Prop :=
| iss_refl c m : VI None c m -> isteps c m c m
| iss_step c m c1 m1 c2 m2 : VI None c m -> istep c m c1 -> isteps c1 m1 c2 m2 -> isteps c m c2 m2.

Definition at_end (c : lcore) (m : gmap nat ckey) : Prop :=
  tr c goal = true /\ forall u k, m !! u = Some k -> Z.min (g c goal) (v c goal) <= k0 k \/ INFINITECOST <= k0 k.
Lemma improve_spec first clk : late = false -> forall fuel c m n, VI None c m -> (Phi c < fuel)%nat ->
  exists c' m' n', limprove_loop e fwd fuel first clk eps iter rep goal c n = Ok (c', n') /\ isteps c m c' m' /\ VI None c' m' /\ (Phi c' <= Phi c)%nat /\ (n <= n')%nat /\
    (at_end c' m' \/ first = false /\ exists j, (n <= j < n')%nat /\ clk j = false).
Proof using All.
  intros Hlate. induction fuel as [|fuel IH]; intros c m n I Hf; [lia|]. cbn [limprove_loop].
  rewrite (lz_rd c goal) by apply (v_lz _ _ _ I). cbn [obind].
  pose proof (v_rng _ _ _ I) as Hrng. destruct (v_heap _ _ _ I) as [R O].
  assert (forall u k, m !! u = Some k -> k = mkKey (g c u + hh u) 0) as Hkey by (intros u k; by apply (v_key0 None)).
  destruct (decide (m = ∅)) as [->|Hne].
  { pose proof (proj1 (rep_empty_cur _ _ R) eq_refl) as H0.
    unfold getminkeyheap, emptyheap. rewrite H0. cbn [Nat.eqb llift obind negb andb].
    exists c, ∅, n. split_and!; try done; [by constructor|]. left. split; [|intros u k; by rewrite lookup_empty].
    destruct (tr c goal) eqn:Et; [done|]. exfalso. destruct (v_tr _ _ _ I goal Et) as [Hlt|[_ ?]]; [|congruence].
    destruct (v_in _ _ _ I goal Hlt) as [?|[Hx|Hx]]; [done|rewrite lookup_empty in Hx; by destruct Hx|].
    destruct (v_z _ _ _ I goal Hx). by apply (v_goal _ _ _ I). }
  destruct (deletemin_spec ckeyops ckeylaws _ m R O Hne) as (s&k&h'&Egm&Edm&Hk&Hmin&Rh&Oh).
  destruct (getmin_spec ckeyops ckeylaws _ m R O Hne) as (s1&k11&Egm'&Emk'&_&_).
  assert (k11 = k) as -> by congruence. rewrite Emk'. cbn [llift obind]. clear Egm'.
  assert (emptyheap (kOpen c) = false) as Eem.
  { unfold emptyheap. pose proof (proj2 (rep_empty_cur _ _ R)) as Hx.
    destruct (cur (kOpen c) =? 0)%nat eqn:E0; [|done]. exfalso. apply Hne, Hx. lia. }
  rewrite Eem. cbn [negb andb].
  assert (forall s' k', m !! s' = Some k' -> k0 k <= k0 k') as Hmin'.
  { intros s' k' Hs'. apply kle_k0; [by eapply Hmin| |]; [rewrite (Hkey _ _ Hk)|rewrite (Hkey _ _ Hs')]; done. }
  pose proof (Hkey s k Hk) as Ek. pose proof (hh_rng s) as Hr. pose proof hh_goal as Hhg.
  destruct ((k0 k <? INFINITECOST) && ((g c goal >? k0 k) || negb (tr c goal)) && (v c goal >? k0 k)) eqn:Econd.
  2:{ exists c, m, n. split_and!; try done; [by constructor|]. left. 
      assert (tr c goal = false -> g c goal < v c goal /\ k0 k <= g c goal) as Hgo.
      { intros Et. destruct (v_tr _ _ _ I goal Et) as [Hlt|[_ ?]]; [|congruence]. split; [done|].
        destruct (v_in _ _ _ I goal Hlt) as [?|[[k' Hx]|Hx]]; [done| |].
        - pose proof (Hmin' _ _ Hx) as Hm. rewrite (Hkey _ _ Hx), Hhg in Hm. cbn in Hm. lia.
        - destruct (v_z _ _ _ I goal Hx). by destruct (v_goal _ _ _ I). }
      pose proof (Hrng goal). split.
      - destruct (tr c goal) eqn:Et; [done|]. destruct (Hgo eq_refl). cbn in Econd. lia.
      - intros u k' Hu. pose proof (Hmin' u k' Hu). destruct (tr c goal); [|destruct (Hgo eq_refl)]; cbn in Econd; lia. }
  apply andb_true_iff in Econd as [Econd Evg]. apply andb_true_iff in Econd as [Elt Egt].
  destruct (first || clk n) eqn:Eclk.
  2:{ exists c, m, (S n). split_and!; try done; [by constructor|lia|]. right. apply orb_false_iff in Eclk as [-> ?]. split; [done|].
      exists n. split; [lia|done]. }
  rewrite Edm. cbn [llift obind fst snd].
  destruct (v_m _ _ _ I s ltac:(eauto)) as (Hgv&Hncl&_&Hlzs).
  assert (g c s < v c s) as Hlt. { destruct Hgv as [?|[-> Heq]]; [done|]. rewrite Ek, Hhg in Evg. cbn in Evg. lia. }
  clear Hgv. pose proof (VI_pop c m s h' I ltac:(eauto) (conj Rh Oh)) as I0. set (c0 := mkLC (kSt c) h' (kInc c)) in *.
  assert (lz c0 s) as Hlz0 by exact Hlzs. rewrite (lz_rd c0 s Hlz0). cbn [obind].
  change (lkz c0 s) with (lkz c s). replace (v c s =? g c s) with false by lia.
  assert (forall u, lkz c0 u = lkz c u) as HL0 by done.
  destruct (tr c s) eqn:Ets.
  - assert (s <> goal) as Hsg. { intros ->. rewrite Ets in Egt. rewrite Ek, Hhg in Egt. cbn in Egt. lia. }
    destruct (VI_exp c0 (delete s m) s I0 Hlate Hlz0 Ets Hlt Hsg) as (I1&X1). set (c1 := set_l c0 s _) in I1, X1.
    change (lkz c0 s) with (lkz c s) in *. fold c1.
    destruct (expand_all_spec s (nb s) c1 (delete s m) I1 Hsg) as (c2&m2&E2&I2&C2); [|done|].
    { destruct X1 as (_&->&_). change (g c s < INFINITECOST). pose proof (Hrng s). lia. }
    unfold ExpandState. rewrite E2. cbn [obind].
    assert (Phi c2 < Phi c)%nat as HPc.
    { destruct (echain_Phi s (nb s) c1 c2 C2) as (HP&_). assert (s < N)%nat as HsN' by by apply (v_dom _ _ _ I).
      destruct X1 as (X0&_&_&X3&_&_&X6&X7). pose proof (Phi_point c c1 s HsN' X0) as HP1. unfold mu, wt in HP1. rewrite X3, X6, X7 in HP1.
      change (lkz c0 s) with (lkz c s) in HP1.
      rewrite Z.eqb_refl in HP1. replace (cl c s =? iter) with false in HP1 by lia. lia. }
    destruct (IH c2 m2 (if first then n else S n) I2) as (c3&m3&n3&E3&S3&I3&HP3&Hn3&D3); [lia|].
    exists c3, m3, n3. split; [done|]. split_and!; try done.
    + apply (iss_step c m c2 m2 c3 m3); try done.
      apply (is_exp c m c2 s c0 c1 (delete s m)); try done; [by exists k| |rewrite Ek in Elt; cbn in Elt; lia].
      intros u k' Hu. pose proof (Hmin' u k' Hu) as Hm. rewrite Ek in Hm. exact Hm.
    + lia.
    + destruct first; lia.
    + destruct D3 as [?|(?&j&?&?)]; [by left|right]. split; [done|]. exists j. split; [destruct first; lia|done].
  - destruct (Evaluate_spec c0 (delete s m) s Hlate I0 Hlz0 Ets Hlt) as (p&c1&m1&c2&m2&E2&Hb&I1&I2&G1&Hpg&Hvp&C2).
    rewrite E2. cbn [obind].
    pose proof (eval_Phi c0 _ s c1 m1 c2 p I0 Hlz0 Ets I1 G1 C2) as HPc. change (Phi c0) with (Phi c) in HPc.
    destruct (IH c2 m2 (if first then n else S n) I2) as (c3&m3&n3&E3&S3&I3&HP3&Hn3&D3); [lia|].
    exists c3, m3, n3. split; [done|]. split_and!; try done.
    + apply (iss_step c m c2 m2 c3 m3); try done.
      apply (is_eval c m c2 s c0 (delete s m) p c1 m1); try done. by exists k.
    + lia.
    + destruct first; lia.
    + destruct D3 as [?|(?&j&?&?)]; [by left|right]. split; [done|]. exists j. split; [destruct first; lia|done].
Qed.
End iter.

(** * ImprovePath *)
Section imp.
Context (eps : Q) (iter : Z) (Heps : (0 <= eps <= E)%Q) (Hiter : 0 <= iter < 65535).
Notation VV late c m := (VI eps iter late None c m).

Lemma VI_goal c m x o : VV false c m -> x <= v c goal -> x <= g c goal -> 0 <= x < INFINITECOST -> (goal <> start -> okslot c goal o x (tr c goal)) ->
  (goal = start -> x = 0) -> (is_Some (m !! goal) -> x = g c goal) ->
  let c1 := set_l c goal (mkL x x (lH (lkz c goal)) (cl c goal) (lRep (lkz c goal)) o o (lInc (lkz c goal)) (ls c goal) (tr c goal)) in
  VV (negb (tr c goal)) c1 m.
Proof using All.
  intros I Hxv Hxg Hx Hok Hst Hkey c1. set (a' := mkL _ _ _ _ _ _ _ _ _ _) in c1.
  assert (lRep a' = rep) as Ha' by apply lkz_rep.
  assert (lkz c1 goal = a') as El1 by (unfold c1; rewrite lkz_set by done; by rewrite decide_True).
  assert (forall u, u <> goal -> lkz c1 u = lkz c u) as El2 by (intros; unfold c1; rewrite lkz_set by done; by rewrite decide_False).
  assert (forall u, lz c1 u <-> u = goal \/ lz c u) as Hlz' by (intros; by apply lz_set).
  assert (forall u, v c1 u <= v c u) as Fv' by (intros u; destruct (decide (u = goal)) as [->|Hn]; [rewrite El1; cbn; lia|rewrite El2 by done; lia]).
  assert (forall u, cl c1 u = cl c u) as Fc by (intros u; destruct (decide (u = goal)) as [->|Hn]; [by rewrite El1|by rewrite El2]).
  assert (forall u, tr c1 u = tr c u) as Ft by (intros u; destruct (decide (u = goal)) as [->|Hn]; [by rewrite El1|by rewrite El2]).
  assert (forall u, ls c1 u = ls c u) as Fl by (intros u; destruct (decide (u = goal)) as [->|Hn]; [by rewrite El1|by rewrite El2]).
  assert (forall u, lInc (lkz c1 u) = lInc (lkz c u)) as Fi by (intros u; destruct (decide (u = goal)) as [->|Hn]; [by rewrite El1|by rewrite El2]).
  pose proof (v_rng _ _ _ _ _ _ I) as Hrng.
  split; try done.
  - apply (v_heap _ _ _ _ _ _ I).
  - apply vrep_set; [apply (v_rep _ _ _ _ _ _ I)|done].
  - intros u Hu. apply Hlz' in Hu as [->|Hu]; [done|by apply (v_dom _ _ _ _ _ _ I)].
  - intros u. destruct (decide (u = goal)) as [->|Hn]; [rewrite El1; cbn; lia|rewrite El2 by done; apply Hrng].
  - intros u. destruct (decide (u = goal)) as [->|Hn]; [rewrite El1|rewrite El2 by done]; apply (v_h _ _ _ _ _ _ I).
  - intros u. destruct (decide (u = goal)) as [->|Hn]; [rewrite El1; cbn; lia|rewrite El2 by done; apply (v_in _ _ _ _ _ _ I)].
  - intros u Hu. rewrite Fc. destruct (v_m _ _ _ _ _ _ I u Hu) as (?&?&?&?). split_and!; try done; [|apply Hlz'; by right].
    destruct (decide (u = goal)) as [->|Hn]; [right; by rewrite El1|by rewrite El2].
  - intros u Hu. destruct (v_z _ _ _ _ _ _ I u Hu) as [H1 H2]. assert (u <> goal) by (intros ->; by apply (v_goal _ _ _ _ _ _ I)).
    rewrite El2 by done. done.
  - apply (v_nodup _ _ _ _ _ _ I).
  - intros u. rewrite Fi. apply (v_flag _ _ _ _ _ _ I).
  - intros u. rewrite Fc. intros Hu. pose proof (v_closed _ _ _ _ _ _ I u Hu). specialize (Fv' u). lia.
  - intros u. rewrite Fc. apply (v_cl _ _ _ _ _ _ I).
  - rewrite Fc. apply (v_goal _ _ _ _ _ _ I).
  - apply Hlz'. by left.
  - rewrite Ft. pose proof (v_start _ _ _ _ _ _ I) as Hs. destruct (decide (start = goal)) as [He|Hn]; [|rewrite El2 by done; done].
    split; [|by apply Hs]. rewrite He, El1. cbn. by apply Hst.
  - intros u. rewrite Ft, Fl. apply (v_true _ _ _ _ _ _ I).
  - intros u Hu1 Hu2. rewrite Ft. apply (okslot_ext c); [done|].
    destruct (decide (u = goal)) as [->|Hn]; [rewrite El1; by apply Hok|rewrite El2 in * by done; by apply (v_slot _ _ _ _ _ _ I)].
  - intros u y. rewrite Fl. intros Hy. destruct (v_list _ _ _ _ _ _ I u y Hy) as (A1&A2&A3&A4&A5).
    pose proof (Fv' (lePar y)). split; [done|]. split; [lia|]. split; [done|]. split; [|done]. destruct (decide (u = goal)) as [->|Hn].
    + right. split; [done|]. destruct (tr c goal) eqn:Et; [|done]. rewrite (v_true _ _ _ _ _ _ I goal Et) in Hy. by apply elem_of_nil in Hy.
    + left. destruct A4 as [A4|[? _]]; [|done]. rewrite El2 by done. unfold zval in *. lia.
  - intros u Hu1 Hu2. destruct (decide (u = goal)) as [->|Hn].
    + exists (tr c goal). split; [apply (okslot_ext c); [done|]; rewrite El1; by apply Hok|]. by intros ->.
    + rewrite El2 in * by done. destruct (v_back _ _ _ _ _ _ I u Hu1 Hu2) as (b&Hb1&Hb2). exists b.
      split; [by apply (okslot_ext c)|]. intros Hb. destruct (Hb2 Hb). done.
  - intros u. rewrite Ft. intros Hu. destruct (decide (u = goal)) as [->|Hn]; [right; by rewrite Hu|]. rewrite El2 by done.
    destruct (v_tr _ _ _ _ _ _ I u Hu) as [?|[? _]]; [by left|done].
  - intros u. destruct (decide (u = goal)) as [->|Hn]; [rewrite El1; cbn; lia|rewrite El2 by done; apply (v_over _ _ _ _ _ _ I)].
  - intros u. destruct (decide (u = goal)) as [->|Hn]; [rewrite El1; cbn; lia|rewrite El2 by done; apply (v_xp _ _ _ _ _ _ I)].
  - intros u k Hk. rewrite (v_key _ _ _ _ _ _ I u k Hk). destruct (decide (u = goal)) as [->|Hn]; [rewrite El1; cbn; by rewrite Hkey|by rewrite El2].
Qed.

(** The state after ImprovePath compared with the state [c1] after its loop. *)
Definition goaled (c1 c2 : lcore) : Prop :=
  (forall u, u <> goal -> lkz c2 u = lkz c1 u) /\ v c2 goal <= v c1 goal /\ Z.min (v c2 goal) (g c2 goal) = Z.min (v c1 goal) (g c1 goal) /\
  g c2 goal <= g c1 goal /\ g c2 goal <= v c2 goal /\
  cl c2 goal = cl c1 goal /\ tr c2 goal = tr c1 goal /\ ls c2 goal = ls c1 goal.
Lemma goaled_Phi c1 c2 : goaled c1 c2 -> Phi iter c2 = Phi iter c1.
Proof using All.
  intros (A1&_&_&_&_&A4&A5&A6). pose proof (Phi_point iter c1 c2 goal HgN A1) as HP.
  unfold mu, wt in HP. rewrite A4, A5, A6 in HP. lia.
Qed.
Lemma ImprovePath_spec first clk fuel c m n : VV false c m -> (Phi iter c < fuel)%nat ->
  exists ret c' m' n' c1 late, LImprovePath e fwd fuel first clk eps iter rep goal c n = Ok (ret, c', n') /\ isteps eps iter false c m c1 m' /\
    VV false c1 m' /\ VV late c' m' /\ goaled c1 c' /\ (Phi iter c' <= Phi iter c)%nat /\ (n <= n')%nat /\
    (at_end c1 m' /\ late = false \/ first = false /\ exists j, (n <= j < n')%nat /\ clk j = false) /\
    (ret = 0 /\ late = false /\ at_end c1 m' /\ g c' goal = INFINITECOST \/
     ret = 2 /\ late = false /\ ~ at_end c1 m' \/
     ret = 1 /\ g c' goal < INFINITECOST /\ v c' goal = g c' goal /\ (tr c1 goal = true -> at_end c1 m' /\ late = false)).
Proof using All.
  intros I Hf. unfold LImprovePath.
  destruct (improve_spec eps iter false Heps Hiter first clk eq_refl fuel c m n I Hf) as (c1&m1&n1&E1&S1&I1&HP1&Hn1&D1). rewrite E1. cbn [obind fst snd].
  pose proof (v_rng _ _ _ _ _ _ I1) as Hrng. destruct (v_heap _ _ _ _ _ _ I1) as [R O].
  assert (forall u k, m1 !! u = Some k -> k = mkKey (g c1 u + hh eps u) 0) as Hkey by (intros u k; by apply (v_key0 eps iter false Heps Hiter None)).
  assert (exists mk, llift LHeap (getminkeyheap ckeyops (kOpen c1)) = Ok mk /\ emptyheap (kOpen c1) = bool_decide (m1 = ∅) /\
    (forall u k, m1 !! u = Some k -> k0 mk <= k0 k) /\ (m1 <> ∅ -> exists u, m1 !! u = Some mk)) as (mk&Emk&Eem&Hmin&Hmk).
  { destruct (decide (m1 = ∅)) as [->|Hne].
    - pose proof (proj1 (rep_empty_cur _ _ R) eq_refl) as H0. unfold getminkeyheap, emptyheap. rewrite H0. cbn. eexists. split_and!; try done.
    - destruct (getmin_spec ckeyops ckeylaws _ m1 R O Hne) as (s1&k11&Egm'&Emk'&Hs1&Hm). exists k11. rewrite Emk'. split_and!; try done.
      + unfold emptyheap. pose proof (proj2 (rep_empty_cur _ _ R)) as Hx. rewrite bool_decide_eq_false_2 by done.
        destruct (cur (kOpen c1) =? 0)%nat eqn:E0; [|done]. exfalso. apply Hne, Hx. lia.
      + intros u k Hu. apply kle_k0; [by eapply Hm| |]; [rewrite (Hkey _ _ Hs1)|rewrite (Hkey _ _ Hu)]; done.
      + by exists s1. }
  rewrite Emk. cbn [obind]. rewrite (lz_rd c1 goal) by apply (v_lz _ _ _ _ _ _ I1). cbn [obind].
  set (a2 := if v c1 goal <? g c1 goal then _ else _). set (c2 := set_l c1 goal a2).
  assert (lRep a2 = rep) as Ha2. { unfold a2. destruct (v c1 goal <? g c1 goal); apply lkz_rep. }
  assert (lkz c2 goal = a2) as El1 by (unfold c2; rewrite lkz_set by done; by rewrite decide_True).
  assert (forall u, u <> goal -> lkz c2 u = lkz c1 u) as El2 by (intros; unfold c2; rewrite lkz_set by done; by rewrite decide_False).
  assert (VV false c2 m1 /\ goaled c1 c2) as [I2 G2].
  { split; [|split_and!; try done; rewrite El1; unfold a2; destruct (v c1 goal <? g c1 goal) eqn:Ev; cbn; try done; lia].
    unfold c2, a2. destruct (v c1 goal <? g c1 goal) eqn:Ev.
    - destruct (v_over _ _ _ _ _ _ I1 goal ltac:(lia)) as [Hg Ht].
      pose proof (VI_goal c1 m1 (v c1 goal) (xp c1 goal) I1) as HV. rewrite Ht in HV. cbn [negb] in HV. rewrite Ht. apply HV.
      + lia.
      + lia.
      + pose proof (Hrng goal). lia.
      + intros Hgs. destruct (v_back _ _ _ _ _ _ I1 goal ltac:(lia) Hgs) as (b&Hb1&Hb2). destruct b; [done|]. by destruct (Hb2 eq_refl).
      + intros Hgs. pose proof (proj1 (v_start _ _ _ _ _ _ I1)) as Hs. rewrite <- Hgs in Hs. pose proof (Hrng goal). lia.
      + intros Hm. destruct (v_m _ _ _ _ _ _ I1 goal Hm) as ([?|[_ ?]]&_); lia.
    - apply (VI_same eps iter false None c1); try done.
      + intros u. rewrite lkz_set by apply lkz_rep. destruct (decide (u = goal)) as [->|]; done.
      + apply vrep_set; [apply (v_rep _ _ _ _ _ _ I1)|apply lkz_rep].
      + intros u Hu. apply lz_set in Hu as [->|Hu]; [done|by apply (v_dom _ _ _ _ _ _ I1)|apply lkz_rep].
      + intros u Hu. apply lz_set; [apply lkz_rep|by right]. }
  assert (forall c', goaled c1 c' -> Phi iter c' <= Phi iter c)%nat as HPg by (intros c' Hg; rewrite (goaled_Phi c1 c' Hg); lia).
  assert (at_end c1 m1 -> m1 <> ∅ -> lG a2 <= k0 mk \/ INFINITECOST <= k0 mk) as Hend.
  { intros [_ Hat] Hne. destruct (Hmk Hne) as [u Hu]. specialize (Hat u mk Hu). rewrite <- El1.
    destruct G2 as (_&_&G3&G4&G5&_). destruct Hat as [Hat|Hat]; [|by right]. left. lia. }
  assert (at_end c1 m1 \/ first = false /\ (exists j, (n <= j < n1)%nat /\ clk j = false)) as D1' by done.
  change (kOpen c2) with (kOpen c1). rewrite Eem.
  assert (lG a2 <= INFINITECOST) as Hga2 by (rewrite <- El1; apply (v_rng _ _ _ _ _ _ I2)).
  destruct ((lG a2 =? INFINITECOST) && (bool_decide (m1 = ∅) || (k0 mk >=? INFINITECOST))) eqn:E0.
  { assert (at_end c1 m1) as Hat.
    { split.
      - destruct (tr c1 goal) eqn:Et; [done|]. exfalso. destruct (v_tr _ _ _ _ _ _ I1 goal Et) as [Hlt|[_ ?]]; [|done].
        assert (lG a2 = g c1 goal) as Hx by (unfold a2; replace (v c1 goal <? g c1 goal) with false by lia; done). pose proof (Hrng goal). lia.
      - intros u k Hu. right. destruct (bool_decide (m1 = ∅)) eqn:Eb.
        + apply bool_decide_eq_true_1 in Eb as ->. by rewrite lookup_empty in Hu.
        + pose proof (Hmin u k Hu). lia. }
    exists 0, c2, m1, n1, c1, false. split; [done|]. split_and!; try done; [by apply HPg|left; done|].
    left. split_and!; try done. rewrite El1. lia. }
  destruct (negb (bool_decide (m1 = ∅)) && (lG a2 >? k0 mk)) eqn:E2.
  { exists 2, c2, m1, n1, c1, false. split; [done|]. 
    assert (~ at_end c1 m1) as Hnat.
    { intros Hat. destruct (Hend Hat) as [?|?]; [|lia|lia]. intros ->. rewrite bool_decide_eq_true_2 in E2 by done. done. }
    split_and!; try done; [by apply HPg|by destruct D1' as [?|?]; [|right]|]. right. left. done. }
  assert (lG a2 < INFINITECOST) as Hfin.
  { destruct (decide (lG a2 = INFINITECOST)) as [He|]; [|lia]. exfalso. destruct (bool_decide (m1 = ∅)) eqn:Eb; cbn in *; lia. }
  set (a3 := if lG a2 <? lV a2 then _ else _). set (c3 := set_l c2 goal a3).
  assert (lRep a3 = rep) as Ha3. { unfold a3. by destruct (lG a2 <? lV a2). }
  assert (lkz c3 goal = a3) as El3 by (unfold c3; rewrite lkz_set by done; by rewrite decide_True).
  assert (lG a2 <= lV a2) as Hle. { rewrite <- El1. by destruct G2 as (_&_&_&_&?&_). }
  assert (goaled c1 c3) as G3.
  { destruct G2 as (B1&B2&B3&B4&B5&B6&B7&B8). split_and!.
    - intros u Hu. rewrite <- B1 by done. unfold c3. rewrite lkz_set by done. by rewrite decide_False.
    - rewrite El3, El1 in *. unfold a3. destruct (lG a2 <? lV a2) eqn:Ex; cbn; lia.
    - rewrite El3, El1 in *. unfold a3. destruct (lG a2 <? lV a2) eqn:Ex; cbn; lia.
    - rewrite El3, El1 in *. unfold a3. destruct (lG a2 <? lV a2) eqn:Ex; cbn; lia.
    - rewrite El3, El1 in *. unfold a3. destruct (lG a2 <? lV a2) eqn:Ex; cbn; lia.
    - rewrite El3, El1 in *. unfold a3. by destruct (lG a2 <? lV a2).
    - rewrite El3, El1 in *. unfold a3. by destruct (lG a2 <? lV a2).
    - rewrite El3, El1 in *. unfold a3. by destruct (lG a2 <? lV a2). }
  assert (exists late, VV late c3 m1 /\ (late = true -> ~ at_end c1 m1)) as (late&I3&Hlate).
  { destruct (lG a2 <? lV a2) eqn:Ex; subst a3.
    - exists (negb (tr c2 goal)). pose proof (v_rng _ _ _ _ _ _ I2) as Hrng2. split.
      + pose proof (VI_goal c2 m1 (g c2 goal) (bp c2 goal) I2) as HV. rewrite El1 in HV. unfold c3. rewrite El1. apply HV.
        * lia. * lia. * specialize (Hrng2 goal). rewrite El1 in Hrng2. lia.
        * intros Hgs. pose proof (v_slot _ _ _ _ _ _ I2 goal Hgs) as Hs. rewrite El1 in Hs. by apply Hs.
        * intros Hgs. pose proof (proj1 (v_start _ _ _ _ _ _ I2)) as Hs. rewrite <- Hgs, El1 in Hs. done.
        * done.
      + intros Hl [Ht _]. destruct G2 as (_&_&_&_&_&_&G7&_). rewrite G7, Ht in Hl. done.
    - exists false. split; [|done]. apply (VI_same eps iter false None c2); try done.
      + intros u. unfold c3. rewrite lkz_set by done. destruct (decide (u = goal)) as [->|]; done.
      + apply vrep_set; [apply (v_rep _ _ _ _ _ _ I2)|done].
      + intros u Hu. apply lz_set in Hu as [->|Hu]; [done|by apply (v_dom _ _ _ _ _ _ I2)|done].
      + intros u Hu. apply lz_set; [done|by right]. }
  exists 1, c3, m1, n1, c1, late. split; [done|]. split_and!; try done; [by apply HPg| |].
  - destruct D1' as [Hat|?]; [|by right]. left. split; [done|]. destruct late; [|done]. by destruct (Hlate eq_refl).
  - right. right. assert (tr c1 goal = true -> at_end c1 m1) as Hte.
    { intros Ht. split; [done|]. intros u k Hu. left. destruct G2 as (_&_&B3&B4&B5&_). rewrite El1 in B3, B4, B5. pose proof (Hmin u k Hu).
      destruct (bool_decide (m1 = ∅)) eqn:Eb; [apply bool_decide_eq_true_1 in Eb as ->; by rewrite lookup_empty in Hu|]. cbn in E2. lia. }
    assert (tr c1 goal = true -> at_end c1 m1 /\ late = false) as Hte'.
    { intros Ht. split; [by apply Hte|]. destruct late; [|done]. by destruct (Hlate eq_refl (Hte Ht)). }
    rewrite El3. unfold a3. destruct (lG a2 <? lV a2) eqn:Ex; cbn; split_and!; try done; lia.
Qed.
End imp.
End run.
