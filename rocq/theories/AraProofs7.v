(** Expansion log, frontier bound, routes. *)
From Coq Require Import ZifyBool ZifyNat QArith Qround Lqa.
From Verif Require Import Base KeyModel HeapModel HeapProofs ListModel ListProofs AngleModel AngleProofs AraModel AraSpec AraProofs AraProofs2 AraPath AraProofs3 AraProofs4 AraProofs5 AraProofs6.
Local Open Scope Z_scope.

(** * The log *)
Lemma log_erase e fwd clk eps iter call goal : forall fuel c n log,
  improve_loop e fwd fuel clk eps iter call goal c n =
  (do r <- improve_log e fwd fuel clk eps iter call goal c n log; Ok (r.1.1, r.1.2)).
Proof.
  induction fuel as [|fuel IH]; intros c n log; [done|]. cbn [improve_loop improve_log].
  destruct (rdst c goal) as [ga| | |]; cbn [obind]; try done.
  destruct (lift XHeap (getminkeyheap ckeyops (cOpen c))) as [mk| | |]; cbn [obind]; try done.
  destruct (_ && _ && _); [|done]. destruct (clk n); [|done].
  destruct (lift XHeap (deleteminheap ckeyops (cOpen c))) as [r| | |]; cbn [obind]; try done.
  destruct (rdst (mkCore (cSt c) r.2 (cInc c)) r.1) as [a| | |]; cbn [obind]; try done.
  match goal with |- context [relax_all ?e ?fwd ?eps ?iter ?call ?s ?l ?c] => destruct (relax_all e fwd eps iter call s l c) as [c2| | |] end; cbn [obind]; try done.
Qed.

Section log.
Context (G : nat -> list (nat * Z)) (e : aenv) (fwd con : bool) (E : Q).
Context (Hge : good_env fwd E G e).
Notation il call c s := (sIter (lk e fwd call c s)).
Lemma log_spec clk eps call iter start goal : (0 <= eps <= E)%Q -> 0 <= iter -> 0 <= call -> sees fwd con G e (Some goal) ->
  forall fuel c m z n log, cinv G e fwd call iter start None c m z -> iinv G e fwd con eps call iter start c m z -> kinv e fwd eps call c m -> hvalid e fwd c ->
    current call c goal -> NoDup log -> (forall s, s ∈ log -> il call c s = iter /\ (s < eSize e)%nat /\ s <> goal) ->
    forall c' n' log', improve_log e fwd fuel clk eps iter call goal c n log = Ok (c', n', log') ->
    NoDup log' /\ (forall s, s ∈ log' -> (s < eSize e)%nat /\ s <> goal).
Proof.
  intros He Hit Hc Hse. induction fuel as [|fuel IH]; intros c m z n log I II K Hv Hcur Hnd Hlog c' n' log'; [done|].
  cbn [improve_log]. rewrite (rdst_current e fwd call c goal Hcur). cbn [obind].
  pose proof (ci_g _ _ _ _ _ _ _ _ _ _ I) as Hg.
  destruct (decide (m = ∅)) as [->|Hne].
  { pose proof (proj1 (rep_empty_cur _ _ (ci_rep _ _ _ _ _ _ _ _ _ _ I)) eq_refl) as H0.
    unfold getminkeyheap, emptyheap. rewrite H0. cbn [Nat.eqb lift obind negb andb]. intros [= <- <- <-]. split; [done|]. intros s Hs. by apply Hlog. }
  destruct (deletemin_spec ckeyops ckeylaws _ m (ci_rep _ _ _ _ _ _ _ _ _ _ I) (ci_ord _ _ _ _ _ _ _ _ _ _ I) Hne)
    as (s&k&h'&Egm&Edm&Hk&Hmin&Rh&Oh).
  destruct (getmin_spec ckeyops ckeylaws _ m (ci_rep _ _ _ _ _ _ _ _ _ _ I) (ci_ord _ _ _ _ _ _ _ _ _ _ I) Hne) as (s1&k11&Egm'&Emk'&_&_).
  assert (k11 = k) as -> by congruence. rewrite Emk'. cbn [lift obind]. clear Egm'.
  assert (emptyheap (cOpen c) = false) as Eem.
  { unfold emptyheap. pose proof (proj2 (rep_empty_cur _ _ (ci_rep _ _ _ _ _ _ _ _ _ _ I))) as Hx.
    destruct (cur (cOpen c) =? 0)%nat eqn:E0; [|done]. exfalso. apply Hne, Hx. lia. }
  rewrite Eem. cbn [negb andb].
  assert (forall s' k', m !! s' = Some k' -> k0 k <= k0 k') as Hmin'.
  { intros s' k' Hs'. apply kle_k0; [by eapply Hmin|by eapply (ci_k1 _ _ _ _ _ _ _ _ _ _ I)|by eapply (ci_k1 _ _ _ _ _ _ _ _ _ _ I)]. }
  pose proof (kinv_k0 G e fwd E Hge eps call iter start None c m z s k He I K Hk) as Ek.
  pose proof (hh_range G e fwd E Hge eps s He) as Hr.
  destruct ((k0 k <? INFINITECOST) && key_gt (mkKey (sG (lk e fwd call c goal)) 0) k) eqn:Econd.
  2:{ intros [= <- <- <-]. split; [done|]. intros x Hx. by apply Hlog. }
  apply andb_true_iff in Econd as [Elt Egt]. destruct (clk n) eqn:Eclk.
  2:{ intros [= <- <- <-]. split; [done|]. intros x Hx. by apply Hlog. }
  rewrite Edm. cbn [lift obind fst snd].
  assert (s <> goal) as Hsg. { intros ->. rewrite Ek in Egt. unfold key_gt in Egt. cbn in Egt. lia. }
  destruct (expand_spec G e fwd con E Hge eps call iter start c m z s k h' He Hit) as (a&c2&m2&z2&Ea&E2&I2&II2&K2&Hv2&M2&Hu2&Hil&Hil2&Hs&Hkeep); try done.
  { intros Hcon. exact (se_cons _ _ _ _ _ Hse Hcon). }
  { apply (se_edge _ _ _ _ _ Hse). congruence. }
  { lia. }
  unfold rdst in *. cbn [cSt]. destruct (cSt c !! s) as [b|] eqn:Eb; [|discriminate]. injection Ea as <-. cbn [obind].
  rewrite E2. cbn [obind].
  apply (IH c2 m2 z2); try done.
  - by apply M2.
  - apply NoDup_app. split_and!; [done| |apply NoDup_singleton]. intros x Hx Hx'. apply elem_of_list_singleton in Hx' as ->. destruct (Hlog s Hx). done.
  - intros x. rewrite elem_of_app, elem_of_list_singleton. intros [Hx| ->]; [|done]. destruct (Hlog x Hx) as (?&?&?). split_and!; auto.
Qed.
End log.

(** * The frontier *)
Section front.
Context (G : nat -> list (nat * Z)) (e : aenv) (fwd con : bool) (E : Q).
Notation gl call c s := (sG (lk e fwd call c s)).
Lemma frontier goal call iter start c m z : sees fwd con G e (Some goal) -> con = true -> (forall s t w, (t, w) ∈ G s -> 0 < w) ->
  cinv G e fwd call iter start None c m z ->
  forall s C, sr G (fun x => x) start s C -> 0 <= C /\ (gl call c s <= C \/
    exists u, (is_Some (m !! u) \/ u ∈ z.*2) /\ gl call c u + heur fwd e u <= C + heur fwd e s).
Proof.
  intros Hse Hcon Hpos I s C. induction 1 as [|s t w C R [HC IH] Hin].
  - split; [lia|]. left. rewrite (ci_start _ _ _ _ _ _ _ _ _ _ I). lia.
  - pose proof (se_cons _ _ _ _ _ Hse Hcon s t w Hin). pose proof (Hpos s t w Hin).
    split; [lia|]. pose proof (ci_g _ _ _ _ _ _ _ _ _ _ I s). pose proof (ci_g _ _ _ _ _ _ _ _ _ _ I t). destruct IH as [IH|(u&Hu&Hk)].
    + destruct (decide (gl call c s < sV (lk e fwd call c s))) as [Hlt|Hge].
      * right. exists s. split; [by apply (ci_inc _ _ _ _ _ _ _ _ _ _ I)|lia].
      * destruct (decide (sV (lk e fwd call c s) < INFINITECOST)) as [Hfin|]; [|left; lia].
        destruct (ci_edge _ _ _ _ _ _ _ _ _ _ I s t w Hfin Hin) as [?|(?&?&?)]; [left; lia|done].
    + right. exists u. split; [done|lia].
Qed.
End front.

(** omin *)
Lemma omin_fold (l : list Z) : forall acc, exists r, fold_left omin l acc = r /\
  (r = None <-> acc = None /\ l = []) /\ (forall x, r = Some x -> (acc = Some x \/ x ∈ l) /\ (forall y, acc = Some y \/ y ∈ l -> x <= y)).
Proof.
  induction l as [|b l IH]; intros acc; cbn [fold_left].
  - exists acc. split; [done|]. split; [naive_solver|]. intros x ->. split; [by left|]. intros y [[= ->]|Hy]; [lia|by apply elem_of_nil in Hy].
  - destruct (IH (omin acc b)) as (r&Er&Hn&Hx). exists r. split; [done|]. split.
    + rewrite Hn. destruct acc; cbn; naive_solver.
    + intros x Hr. destruct (Hx x Hr) as (H1&H2). destruct acc as [a|]; cbn [omin] in *.
      * destruct (b <? a) eqn:Eb.
        -- split; [right; rewrite elem_of_cons; destruct H1 as [[= ->]|?]; auto|]. intros y [[= <-]|Hy].
           ++ specialize (H2 b (or_introl eq_refl)). lia.
           ++ apply elem_of_cons in Hy as [->|Hy]; auto.
        -- split; [rewrite elem_of_cons; destruct H1 as [[= ->]|?]; auto|]. intros y [[= <-]|Hy].
           ++ apply H2. by left.
           ++ apply elem_of_cons in Hy as [->|Hy]; auto. specialize (H2 a (or_introl eq_refl)). lia.
      * split; [right; rewrite elem_of_cons; destruct H1 as [[= ->]|?]; auto|]. intros y [[=]|Hy].
        apply elem_of_cons in Hy as [->|Hy]; auto.
Qed.

(** Σ over routes: a user's route is a search route. *)
Lemma sr_trans G W start : forall l a z C, route W (gedge true G) l a z C -> forall C0, sr G W start a C0 -> sr G W start z (C0 + C).
Proof.
  intros l a z C. induction 1 as [a|a b l z c C He HR IH]; intros C0 H0; [by rewrite Z.add_0_r|].
  replace (C0 + (W c + C)) with ((C0 + W c) + C) by lia. apply IH. by apply (sr_S _ _ _ a).
Qed.
Lemma sr_rev G W : forall l a z C, route W (gedge false G) l a z C -> sr G W z a C.
Proof.
  intros l a z C. induction 1 as [a|a b l z c C He HR IH]; [constructor|]. rewrite Z.add_comm. by apply (sr_S _ _ _ b).
Qed.
Lemma route_sr fwd G W l s g C : route W (gedge fwd G) l s g C -> sr G W (if fwd then s else g) (if fwd then g else s) C.
Proof.
  destruct fwd; intros R; [|by apply sr_rev in R]. rewrite <- (Z.add_0_l C). eapply sr_trans; [exact R|constructor].
Qed.

(** Inflated costs. *)
Lemma inflate_mono e1 e2 c : 0 <= c -> (e1 <= e2)%Q -> inflate e1 c <= inflate e2 c.
Proof.
  intros Hc He. unfold inflate. assert (Qceiling (e1 * inject_Z c) <= Qceiling (e2 * inject_Z c)); [|lia].
  apply Qceiling_resp_le, Qmult_le_compat_r; [done|]. unfold inject_Z, Qle. cbn. lia.
Qed.
Lemma inflate_one ep c : 0 <= c -> (ep <= 1)%Q -> inflate ep c = c.
Proof.
  intros Hc He. pose proof (inflate_mono ep 1 c Hc He). pose proof (inflate_ge ep c). assert (inflate 1 c = c); [|lia].
  unfold inflate. assert (1 * inject_Z c == inject_Z c)%Q as -> by ring. rewrite Qceiling_Z. lia.
Qed.
Lemma inflate_int n c : 1 <= n -> 0 <= c -> inflate (inject_Z n) c = n * c.
Proof.
  intros Hn Hc. unfold inflate. rewrite <- inject_Z_mult, Qceiling_Z. nia.
Qed.
Lemma inflate_real ep c : 0 <= c -> (1 <= ep)%Q -> (inject_Z (inflate ep c) <= ep * inject_Z c + 1)%Q.
Proof.
  intros Hc He. assert (inject_Z c <= ep * inject_Z c)%Q.
  { assert (1 * inject_Z c <= ep * inject_Z c)%Q by (apply Qmult_le_compat_r; [done|unfold inject_Z, Qle; cbn; lia]). lra. }
  pose proof (Qceiling_lt (ep * inject_Z c)) as Hl. assert (inject_Z (Qceiling (ep * inject_Z c)) < ep * inject_Z c + 1)%Q as Hl2.
  { replace (Qceiling (ep * inject_Z c)) with ((Qceiling (ep * inject_Z c) - 1) + 1) by lia. rewrite inject_Z_plus. change (inject_Z 1) with 1%Q. lra. }
  unfold inflate. destruct (Z.max_spec c (Qceiling (ep * inject_Z c))) as [(_&->)|(_&->)]; lra.
Qed.
Lemma route_weights fwd G W1 W2 l s g C (f : Z -> Z -> Prop) :
  (forall u v c, gedge fwd G u v c -> 0 < c) -> route W1 (gedge fwd G) l s g C -> exists C2, route W2 (gedge fwd G) l s g C2 /\
    ((forall c, 0 < c -> W2 c <= W1 c) -> C2 <= C).
Proof.
  intros Hp. induction 1 as [a|a b l z c C He HR (C2&R2&IH)].
  - exists 0. split; [constructor|lia].
  - exists (W2 c + C2). split; [by constructor|]. intros Hw. specialize (IH Hw). specialize (Hw c (Hp _ _ _ He)). lia.
Qed.
Lemma route_scale fwd G ep l s g C : (forall u v c, gedge fwd G u v c -> 0 < c) -> (1 <= ep)%Q -> route (fun x => x) (gedge fwd G) l s g C ->
  0 <= C /\ exists C2, route (inflate ep) (gedge fwd G) l s g C2 /\ (inject_Z C2 <= ep * inject_Z C + inject_Z (Z.of_nat (length l - 1)))%Q /\
    (forall n, (ep == inject_Z n)%Q -> 1 <= n -> C2 = n * C) /\ ((ep <= 1)%Q -> C2 = C).
Proof.
  intros Hp He. induction 1 as [a|a b l z c C Hed HR (HC&C2&R2&IH&Hi&H1)].
  - split; [lia|]. exists 0. split; [constructor|]. split_and!; [|lia|done]. change (inject_Z 0) with 0%Q. cbn. change (inject_Z (Z.of_nat 0)) with 0%Q. lra.
  - pose proof (Hp _ _ _ Hed) as Hc. split; [lia|]. exists (inflate ep c + C2). split_and!.
    + by constructor.
    + pose proof (inflate_real ep c ltac:(lia) He). cbn [length] in *. rewrite !inject_Z_plus.
      replace (Z.of_nat (S (S (length l)) - 1)) with (Z.of_nat (S (length l) - 1) + 1) by lia. rewrite inject_Z_plus.
      change (inject_Z 1) with 1%Q. lra.
    + intros n En Hn. rewrite (Hi n En Hn). assert (inflate ep c = inflate (inject_Z n) c) as ->; [|rewrite inflate_int by lia; lia].
      unfold inflate. f_equal. apply Qceiling_comp. by rewrite En.
    + intros Hle. rewrite (H1 Hle), inflate_one by (try done; lia). lia.
Qed.

(** * compute_suboptimality *)
Section subopt.
Context (fwd con : bool) (E : Q) (G : nat -> list (nat * Z)) (e : aenv) (start goal : nat).
Notation linv := (linv fwd con E G e start goal).
Definition fval (call : Z) (c : core) (s : nat) : Z := sG (lk e fwd call c s) + heur fwd e s.

Lemma incons_min_spec call iter c m z : cinv G e fwd call iter start None c m z -> hvalid e fwd c ->
  forall n i acc, (n = length z - i)%nat -> (i <= length z)%nat ->
  incons_min n c (z.*2 !! i) acc = Ok (fold_left omin (fval call c <$> drop i (z.*2)) acc).
Proof.
  intros I Hv. induction n as [|n IH]; intros i acc Hn Hi.
  - rewrite lookup_ge_None_2 by (rewrite fmap_length; lia). cbn [incons_min]. rewrite drop_ge by (rewrite fmap_length; lia). done.
  - destruct (z.*2 !! i) as [s|] eqn:Es. 2:{ apply lookup_ge_None in Es. rewrite fmap_length in Es. lia. }
    cbn [incons_min].
    assert (sG (lk e fwd call c s) < sV (lk e fwd call c s)) as Hlt by (apply (ci_inc _ _ _ _ _ _ _ _ _ _ I); right; by eapply elem_of_list_lookup_2).
    pose proof (ci_g _ _ _ _ _ _ _ _ _ _ I s) as Hg.
    destruct (lk_finite e fwd call c s) as (a&Ea&Eac&El); [lia|]. unfold rdst. rewrite Ea. cbn [obind].
    rewrite (getnext_spec _ z i s (ci_lrep _ _ _ _ _ _ _ _ _ _ I) Es). cbn [lift obind].
    rewrite IH by lia. rewrite (drop_S _ _ _ Es). cbn [fmap list_fmap fold_left]. do 2 f_equal. f_equal. unfold fval. rewrite El.
    f_equal. by apply Hv.
Qed.
Lemma open_min_spec call iter c m z : cinv G e fwd call iter start None c m z -> hvalid e fwd c ->
  forall n i acc, (1 <= i)%nat -> (i + n <= S (cur (cOpen c)))%nat ->
  exists l, open_min c i n acc = Ok (fold_left omin (fval call c <$> l) acc) /\
    (forall s, s ∈ l <-> exists j, (i <= j < i + n)%nat /\ fst <$> arr (cOpen c) !! j = Some s).
Proof.
  intros I Hv. induction n as [|n IH]; intros i acc Hi Hn.
  - exists []. cbn [open_min]. split; [done|]. intros s. split; [intros Hs; by apply elem_of_nil in Hs|]. intros (j&?&_). lia.
  - cbn [open_min]. destruct (ci_rep _ _ _ _ _ _ _ _ _ _ I) as (Ha&_&Hs&_). destruct (Hs i) as (s&k&Es&Em&_); [lia|].
    unfold rd. destruct (Z.of_nat i <? alloc (cOpen c)) eqn:Ei; [|lia]. rewrite Es. cbn [lift obind fst].
    assert (sG (lk e fwd call c s) < sV (lk e fwd call c s)) as Hlt by (apply (ci_inc _ _ _ _ _ _ _ _ _ _ I); left; eauto).
    pose proof (ci_g _ _ _ _ _ _ _ _ _ _ I s) as Hg.
    destruct (lk_finite e fwd call c s) as (a&Ea&Eac&El); [lia|]. unfold rdst. rewrite Ea. cbn [obind].
    destruct (IH (S i) (omin acc (sG a + sH a))) as (l&El'&Hl); [lia|lia|]. rewrite El'. exists (s :: l). split.
    + cbn [fmap list_fmap fold_left]. do 2 f_equal. f_equal. unfold fval. rewrite El. f_equal. by apply Hv.
    + intros s'. rewrite elem_of_cons, Hl. split.
      * intros [->|(j&?&?)]; [exists i; split; [lia|by rewrite Es]|exists j; split; [lia|done]].
      * intros (j&Hj&Ej). destruct (decide (j = i)) as [->|?]; [left; rewrite Es in Ej; by injection Ej as <-|right; exists j; split; [lia|done]].
Qed.
(** The states counted: INCONS and the heap without its last slot. *)
Definition counted (c : core) (z : list (nat * nat)) (s : nat) : Prop :=
  s ∈ z.*2 \/ exists j, (1 <= j < cur (cOpen c))%nat /\ fst <$> arr (cOpen c) !! j = Some s.
Lemma subopt_spec p : linv p -> gcur goal p -> exists m z r, cinv G e fwd (aCall p) (aIter p) start None (aC p) m z /\
  compute_suboptimality p = Ok r /\
  (r = None <-> forall s, ~ counted (aC p) z s) /\
  forall b, r = Some b -> exists f, (exists s, counted (aC p) z s /\ fval (aCall p) (aC p) s = f) /\
    (forall s, counted (aC p) z s -> f <= fval (aCall p) (aC p) s) /\ (1 <= b)%Q /\
    ((aSat p <= b)%Q \/ 0 < f /\ (inject_Z (gg fwd e goal p) / inject_Z f <= b)%Q).
Proof.
  intros L Hcur. destruct (linv_search _ _ _ _ _ _ _ p L) as (m&z&I&_&_&J). pose proof L as (P&_&Hv&_&Hgoal).
  unfold compute_suboptimality.
  rewrite (getfirst_spec _ z (ci_lrep _ _ _ _ _ _ _ _ _ _ I)). cbn [lift obind].
  assert (csize (cInc (aC p)) = length z) as -> by apply (ci_lrep _ _ _ _ _ _ _ _ _ _ I).
  rewrite head_lookup. rewrite (incons_min_spec _ _ _ _ _ I Hv (length z) 0 None) by lia. cbn [obind]. rewrite drop_0.
  destruct (open_min_spec _ _ _ _ _ I Hv (cur (cOpen (aC p)) - 1) 1 None) as (l&El&Hl).
  { lia. } { lia. }
  rewrite El. cbn [obind].
  assert (forall s, counted (aC p) z s <-> s ∈ z.*2 \/ s ∈ l) as Hcount.
  { intros s. unfold counted. rewrite Hl. split; (intros [?|(j&?&?)]; [by left|right]; exists j; split; [lia|]); [|done]; done. }
  destruct (omin_fold (fval (aCall p) (aC p) <$> z.*2) None) as (ri&Eri&Hni&Hxi).
  destruct (omin_fold (fval (aCall p) (aC p) <$> l) None) as (ro&Ero&Hno&Hxo). rewrite Eri, Ero.
  assert (exists r, omerge ro ri = r /\ (r = None <-> ro = None /\ ri = None) /\
     forall x, r = Some x -> (ro = Some x \/ ri = Some x) /\ (forall y, ro = Some y \/ ri = Some y -> x <= y)) as (rr&Err&Hnr&Hxr).
  { exists (omerge ro ri). split; [done|]. destruct ro as [a|], ri as [b|]; cbn; (split; [naive_solver|]); intros x [= <-]; try destruct (a <? b) eqn:Eab; split; auto; intros y [[= <-]|[= <-]]; lia. }
  rewrite Err. assert (rr = None <-> forall s, ~ counted (aC p) z s) as Hnone.
  { rewrite Hnr, Hno, Hni. split.
    - intros ((_&H1)&(_&H2)) s. rewrite Hcount. apply fmap_nil_inv in H1, H2. rewrite H1, H2. intros [Hs|Hs]; by apply elem_of_nil in Hs.
    - intros Hs. split; (split; [done|]).
      + destruct l as [|s l]; [done|]. exfalso. apply (Hs s). apply Hcount. right. left.
      + destruct (z.*2) as [|s l']; [done|]. exfalso. apply (Hs s). apply Hcount. left. left. }
  destruct rr as [x|].
  2:{ exists m, z, None. split_and!; try done. split; [intros _; by apply Hnone|done]. }
  destruct (gcur_rd fwd G e goal p Hcur) as (ga&Ega&Hga). rewrite Hgoal, Ega. cbn [obind]. rewrite Hga.
  eexists m, z, _. split; [done|]. split; [reflexivity|]. split.
  { split; [done|]. intros Hs. exfalso. apply Hnone in Hs. done. }
  intros b [= <-]. destruct (Hxr x eq_refl) as (Hx1&Hx2). exists x.
  assert (forall s, counted (aC p) z s -> x <= fval (aCall p) (aC p) s) as Hmin.
  { intros s Hs. apply Hcount in Hs as [Hs|Hs].
    - destruct ri as [y|]. + destruct (Hxi y eq_refl) as (_&Hy). specialize (Hx2 y (or_intror eq_refl)).
        specialize (Hy (fval (aCall p) (aC p) s) (or_intror (elem_of_list_fmap_1 _ _ _ Hs))). lia.
      + destruct Hni as [Hni _]. destruct (Hni eq_refl) as (_&Hz). apply fmap_nil_inv in Hz. rewrite Hz in Hs. by apply elem_of_nil in Hs.
    - destruct ro as [y|]. + destruct (Hxo y eq_refl) as (_&Hy). specialize (Hx2 y (or_introl eq_refl)).
        specialize (Hy (fval (aCall p) (aC p) s) (or_intror (elem_of_list_fmap_1 _ _ _ Hs))). lia.
      + destruct Hno as [Hno _]. destruct (Hno eq_refl) as (_&Hz). apply fmap_nil_inv in Hz. rewrite Hz in Hs. by apply elem_of_nil in Hs. }
  assert (exists s, counted (aC p) z s /\ fval (aCall p) (aC p) s = x) as Hex.
  { destruct Hx1 as [Hx1|Hx1].
    - destruct (Hxo x Hx1) as ([[=]|Hin]&_). apply elem_of_list_fmap in Hin as (s&->&Hs). exists s. split; [apply Hcount; by right|done].
    - destruct (Hxi x Hx1) as ([[=]|Hin]&_). apply elem_of_list_fmap in Hin as (s&->&Hs). exists s. split; [apply Hcount; by left|done]. }
  assert (0 <= x) as Hx0.
  { destruct Hex as (s&_&<-). unfold fval. pose proof (ci_g _ _ _ _ _ _ _ _ _ _ I s). pose proof (ge_heur _ _ _ _ (p_ge _ _ _ _ _ _ P) s). lia. }
  split; [done|]. split; [done|].
  destruct (x =? 0) eqn:E0.
  - split; destruct (Qltb_spec 1 (aSat p)); try lra; left; lra.
  - destruct (Qltb_spec (inject_Z (gg fwd e goal p) / inject_Z x) (aSat p)) as [Hq|Hq].
    + split; destruct (Qltb_spec 1 (inject_Z (gg fwd e goal p) / inject_Z x)); try lra; right; (split; [lia|lra]).
    + split; destruct (Qltb_spec 1 (aSat p)); try lra; left; lra.
Qed.
Lemma subopt_bound p m z f b C : linv p -> con = true -> cinv G e fwd (aCall p) (aIter p) start None (aC p) m z ->
  (forall s, is_Some (m !! s) \/ s ∈ z.*2 -> f <= fval (aCall p) (aC p) s) -> (1 <= b)%Q -> 0 < f -> (inject_Z (gg fwd e goal p) / inject_Z f <= b)%Q ->
  sr G (fun x => x) start goal C -> (inject_Z (gg fwd e goal p) <= b * inject_Z C)%Q.
Proof.
  intros L Hcon I Hmin Hb Hf Hq HR. pose proof L as (P&_&Hv&_&Hgoal).
  assert (sees fwd con G e (Some goal)) as Hse by (rewrite <- Hgoal; apply P).
  assert (forall s t w, (t, w) ∈ G s -> 0 < w) as Hpos by (intros s t w Hw; apply (ge_edge _ _ _ _ (p_ge _ _ _ _ _ _ P) s t w Hw)).
  destruct (frontier G e fwd con goal _ _ _ _ _ _ Hse Hcon Hpos I goal C HR) as (HC&Hor).
  assert (0 <= inject_Z C)%Q by (unfold inject_Z, Qle; cbn; lia).
  assert (0 <= (b - 1) * inject_Z C)%Q by (apply Qmult_le_0_compat; lra).
  destruct Hor as [Hle|(u&Hu&Hk)].
  - assert (inject_Z (gg fwd e goal p) <= inject_Z C)%Q by (unfold gg; rewrite <- Zle_Qle; lia). lra.
  - rewrite (se_zero _ _ _ _ _ Hse Hcon goal eq_refl) in Hk. specialize (Hmin u Hu). unfold fval in Hmin.
    assert (inject_Z f <= inject_Z C)%Q by (rewrite <- Zle_Qle; lia). assert (0 < inject_Z f)%Q by (unfold inject_Z, Qlt; cbn; lia).
    assert (inject_Z (gg fwd e goal p) <= b * inject_Z f)%Q.
    { assert (inject_Z (gg fwd e goal p) == inject_Z (gg fwd e goal p) / inject_Z f * inject_Z f)%Q as -> by (field; lra).
      apply Qmult_le_compat_r; lra. }
    assert (0 <= b * (inject_Z C - inject_Z f))%Q by (apply Qmult_le_0_compat; lra). lra.
Qed.
End subopt.
