(** Lemmas for C63 - C66: successors and predecessors. *)
From Coq Require Import Sorting.Sorted.
From Verif Require Import Base NavModel LatModel LatSpec LatProofs LatProofs2 LatProofs3 LatProofs4 MlevModel MlevSpec MlevProofs.
Local Open Scope Z_scope.

Section run.
Context (N : Z) (k : nat) (ps : list prim) (OKps : prims_ok N k ps) (Hk : (k <= 256)%nat) (Ls : list level).
Record mgood (e : lat) : Prop := mkMGood { mg_good : good N k ps e; mg_levs : forall l, l ∈ Ls -> lev_ok (cW (lC e)) (cH (lC e)) N k l }.
Notation medge := (medge N ps Ls).
Notation mleads := (mleads N ps Ls).
Notation mleadsb := (mleadsb N ps Ls).
Lemma mgood_ext e e' : mgood e -> linv e' -> ext e e' -> mgood e'.
Proof. intros [G L] I' X. split; [by eapply good_ext|]. by rewrite (x_C _ _ X). Qed.
Lemma mfree_ext e e' c : ext e e' -> mfree Ls e' c <-> mfree Ls e c.
Proof. intros X. unfold mfree. by rewrite (x_C _ _ X), (x_grid _ _ X). Qed.
Lemma medge_ext e e' i u v c : ext e e' -> medge e' i u v c <-> medge e i u v c.
Proof. intros X. unfold MlevSpec.medge, mexec, base_sweep_free, mgreatest, counts. rewrite (x_C _ _ X), (x_grid _ _ X). done. Qed.
Lemma mleads_ext e e' i u v c : ext e e' -> mleads e' i u v c <-> mleads e i u v c.
Proof. intros X. unfold MlevSpec.mleads, mfree. rewrite (x_C _ _ X), (x_grid _ _ X). done. Qed.
Lemma mleadsb_ext e e' i u v c : ext e e' -> mleadsb e' i u v c <-> mleadsb e i u v c.
Proof. intros X. unfold MlevSpec.mleadsb, mfree. rewrite (x_C _ _ X), (x_grid _ _ X). done. Qed.
Lemma mgreatest_fun e s p m m' : mgreatest Ls e s p m -> mgreatest Ls e s p m' -> m = m'.
Proof. intros [C U] [C' U']. pose proof (U _ C'). pose proof (U' _ C). lia. Qed.
Lemma medge_fun e i u v v' c c' : medge e i u v c -> medge e i u v' c' -> v = v' /\ c = c'.
Proof.
  intros (p & Ep & A1 & A2 & _ & m & G & A3 & _) (p' & Ep' & B1 & B2 & _ & m' & G' & B3 & _). rewrite Ep in Ep'. injection Ep' as <-. pose proof (mgreatest_fun _ _ _ _ _ G G') as ->.
  split; [|congruence]. destruct v, v'; simpl in *. congruence.
Qed.
Lemma medge_end_free e i u v c : medge e i u v c -> mfree Ls e v.1.
Proof. intros (p & _ & A1 & _ & (X & S & _) & _). rewrite A1. split; [by destruct X as (_ & ? & _)|]. intros l Hl. by destruct (S l Hl) as (_ & ? & _). Qed.
Lemma medge_start_free e i u v c : medge e i u v c -> mfree Ls e u.1.
Proof. intros (p & _ & _ & _ & (X & S & _) & _). split; [by destruct X as (? & _)|]. intros l Hl. by destruct (S l Hl) as (? & _). Qed.
Lemma mind e t i p a : good N k ps e -> 0 <= t < N -> of_angle t ps !! i = Some p -> act_at (lC e) t i = Ok a -> (i < k)%nat /\ aInd a = Z.of_nat i.
Proof.
  intros [I C] Ht Ep Ea. assert (i < k)%nat by (rewrite <- (po_uniform _ _ _ OKps t Ht); by eapply lookup_lt_Some). split; [done|]. rewrite (co_ind _ _ _ _ C _ _ _ _ Ht Ep Ea). unfold uchar. apply Z.mod_small. lia.
Qed.
Lemma place_lt t i p : 0 <= t < N -> of_angle t ps !! i = Some p -> (i < k)%nat.
Proof. intros Ht Ep. rewrite <- (po_uniform _ _ _ OKps t Ht). by eapply lookup_lt_Some. Qed.

(** *** GetSuccs *)
Lemma msuccs_loop_spec en is : 0 <= eT en < N -> (forall i, i ∈ is -> (i < k)%nat) -> forall e, mgood e ->
  exists l e', msuccs_loop Ls e en is = Ok (l, e') /\ mgood e' /\ ext e e' /\ l.*2 `sublist_of` (pair (Z.to_nat (eT en)) <$> is) /\
    (forall i w c, i ∈ is -> medge e i (pose_of en) w c -> exists v, at_pose e' v w) /\
    forall v c ti, (v, c, ti) ∈ l <-> exists i w, i ∈ is /\ ti = (Z.to_nat (eT en), i) /\ at_pose e' v w /\ medge e i (pose_of en) w c.
Proof.
  intros Ht. induction is as [|i is IH]; intros His e Ge.
  - exists [], e. simpl. split_and!; try done; [apply ext_refl|by intros ? ? ? H%elem_of_nil|]. intros v c ti. split; [by intros H%elem_of_nil|]. intros (i & w & H & _). by apply elem_of_nil in H.
  - pose proof Ge as [[I C] LO]. assert (His' : forall i, i ∈ is -> (i < k)%nat) by (intros; apply His; by right). specialize (IH His').
    pose proof (po_N _ _ _ OKps) as HN. pose proof (co_N _ _ _ _ C) as EN.
    destruct (lookup_lt_is_Some_2 (of_angle (eT en) ps) i) as [p Ep]. { rewrite (po_uniform _ _ _ OKps) by lia. apply His. left. }
    destruct (co_act _ _ _ _ C _ _ _ Ht Ep) as (a & Ea & Aok). destruct (angle_nth_in _ _ _ _ Ep) as [Pin Pst].
    pose proof (po_end _ _ _ OKps p Pin) as HE. pose proof (po_cost _ _ _ OKps p Pin) as HC.
    destruct (mind e _ _ _ _ (mg_good _ Ge) Ht Ep Ea) as [Hik Eai].
    simpl. rewrite Ea. simpl. pose proof Aok as (A1 & A2 & A3 & A4 & A5 & A6 & A7).
    rewrite A2, A3, A4. rewrite normtheta_ok by lia. simpl. rewrite EN.
    destruct (mValid_spec e I N k Ls LO (eX en + pX p) (eY en + pY p)) as (b & Eb & Hb). rewrite Eb. simpl.
    destruct (mCost_spec e I N k Ls LO (eX en) (eY en) a p i Aok HC ltac:(lia) Hik Eai) as (c0 & Ec & Hc). rewrite Pst in Hc.
    assert (SKIP : (forall w c, ~ medge e i (pose_of en) w c) ->
      exists l e', msuccs_loop Ls e en is = Ok (l, e') /\ mgood e' /\ ext e e' /\ l.*2 `sublist_of` ((Z.to_nat (eT en), i) :: (pair (Z.to_nat (eT en)) <$> is)) /\
        (forall j w c, j ∈ i :: is -> medge e j (pose_of en) w c -> exists v, at_pose e' v w) /\
        forall v c ti, (v, c, ti) ∈ l <-> exists j w, j ∈ i :: is /\ ti = (Z.to_nat (eT en), j) /\ at_pose e' v w /\ medge e j (pose_of en) w c).
    { intros HNo. destruct (IH e Ge) as (l & e' & E & G' & X & S & Hc' & Hl). exists l, e'. split_and!; try done; [by apply sublist_cons| |].
      { intros j w c [-> |Hj]%elem_of_cons Hq; [|eauto]. by destruct (HNo _ _ Hq). }
      intros v c ti. rewrite Hl. split.
      - intros (j & w & Hj & H). exists j, w. split; [by right|done].
      - intros (j & w & [-> |Hj]%elem_of_cons & Ht' & H1 & H2); [|exists j, w; done]. by destruct (HNo _ _ H2). }
    destruct b; simpl.
    2: { apply SKIP. intros w c Hw. pose proof (medge_end_free _ _ _ _ _ Hw) as F. destruct Hw as (p' & Ep' & Ew & _). simpl in Ep'. rewrite Ep in Ep'. injection Ep' as <-. rewrite Ew in F. destruct Hb as [_ Hb]. discriminate (Hb F). }
    rewrite Ec. simpl. destruct (c0 >=? INFINITECOST) eqn:Q.
    { apply SKIP. intros w c (p' & Ep' & _ & _ & X & m & Gm & -> & Lt). simpl in *. rewrite Ep in Ep'. injection Ep' as <-. destruct Hc as [(X' & m' & Gm' & HH)|[nX _]]; [|done].
      pose proof (mgreatest_fun _ _ _ _ _ Gm Gm') as ->. lia. }
    destruct Hc as [(X & m & Gm & Em)|[_ ?]]; [|lia]. assert (Em' : c0 = pCost p * (m + 1)) by lia. clear Em.
    pose proof (Z.mod_pos_bound (pEnd p) N ltac:(lia)) as HB.
    destruct (free_in e (eX en + pX p) (eY en + pY p) I (proj1 (proj1 Hb eq_refl))) as [Bx By].
    destruct (lState_spec e (eX en + pX p) (eY en + pY p) (pEnd p mod N) I) as (id & e1 & en1 & E1 & I1 & X1 & T1 & P1).
    { apply inrange_iff. rewrite EN. lia. }
    rewrite E1. simpl. assert (G1 : mgood e1) by (exact (mgood_ext e e1 Ge I1 X1)). destruct (IH e1 G1) as (l & e' & E & G' & X' & S & Hc' & Hl).
    rewrite E. simpl. eexists _, e'. split_and!; [done|done|by eapply ext_trans| | |].
    { simpl. by apply sublist_skip. }
    { intros j w c [-> |Hj]%elem_of_cons Hq; [|eapply Hc'; [done|by apply (medge_ext e e1)]].
      exists id. eapply at_ext; [done|]. exists en1. split; [done|]. rewrite P1. destruct Hq as (p' & Ep' & B1 & B2 & _). simpl in Ep'. rewrite Ep in Ep'. injection Ep' as <-. destruct w; simpl in *. rewrite B1, B2. done. }
    assert (AT : at_pose e' id (eX en + pX p, eY en + pY p, pEnd p mod N)). { eapply at_ext; [done|]. exists en1. done. }
    assert (ED : medge e i (pose_of en) (eX en + pX p, eY en + pY p, pEnd p mod N) c0).
    { exists p. split_and!; try done. exists m. split_and!; [done|done|lia]. }
    intros v c ti. rewrite elem_of_cons, Hl. split.
    + intros [[= -> -> ->]|(j & w & Hj & Et & Aw & Hw)].
      * exists i, (eX en + pX p, eY en + pY p, pEnd p mod N). split_and!; try done. left.
      * exists j, w. split_and!; [by right|done|done|]. by apply (medge_ext e e1).
    + intros (j & w & [-> |Hj]%elem_of_cons & Et & Aw & Hw).
      * left. destruct (medge_fun _ _ _ _ _ _ _ ED Hw) as [<- <-]. rewrite (at_inj e' v id _ (g_inv _ _ _ _ (mg_good _ G')) Aw AT). congruence.
      * right. exists j, w. split_and!; try done. by apply (medge_ext e e1).
Qed.
Lemma mSuccs_spec e id u : mgood e -> at_pose e id u -> id <> lGoal e ->
  exists l e', mSuccs Ls e id = Ok (l, e') /\ mgood e' /\ ext e e' /\ l.*2 `sublist_of` (pair (Z.to_nat u.2) <$> seq 0 k) /\
    (forall i w c, medge e i u w c -> exists v, at_pose e' v w) /\
    forall v c ti, (v, c, ti) ∈ l <-> exists w, ti.1 = Z.to_nat u.2 /\ at_pose e' v w /\ medge e ti.2 u w c.
Proof.
  intros Ge (en & E & P) Hg. pose proof Ge as [[I C] _]. unfold mSuccs. destruct (Nat.eqb_spec id (lGoal e)); [done|]. unfold lCoord. rewrite E. simpl.
  rewrite (co_k _ _ _ _ C). pose proof (li_range _ I _ _ E) as R. rewrite inrange_iff, (co_N _ _ _ _ C) in R. subst u. simpl.
  assert (LT : forall i w c, medge e i (pose_of en) w c -> (i < k)%nat) by (intros i w c (p & Ep & _); eapply place_lt; [|done]; simpl; lia).
  destruct (msuccs_loop_spec en (seq 0 k)) with (e := e) as (l & e' & El & G' & X & S & Hc & Hl); [lia| |done|].
  { intros i. rewrite elem_of_seq. lia. }
  exists l, e'. split_and!; try done.
  { intros i w c Hp. eapply (Hc i); [|done]. apply elem_of_seq. apply LT in Hp. lia. }
  intros v c ti. rewrite Hl. split.
  - intros (i & w & Hi & -> & H1 & H2). exists w. done.
  - intros (w & H1 & H2 & H3). exists ti.2, w. split_and!; try tauto.
    + apply elem_of_seq. apply LT in H3. lia.
    + destruct ti; simpl in *; congruence.
Qed.

(** *** GetPreds *)
Definition mback (e : lat) (q : nat * nat) (u v : pose) (c : Z) : Prop := u.2 = Z.of_nat q.1 /\ medge e q.2 u v c.
Lemma mback_ext e e' q u v c : ext e e' -> mback e' q u v c <-> mback e q u v c.
Proof. intros X. unfold mback. by rewrite (medge_ext e e'). Qed.
Lemma mpreds_loop_spec en qs : (forall q, q ∈ qs -> exists p, of_angle (Z.of_nat q.1) ps !! q.2 = Some p /\ pEnd p mod N = eT en) ->
  forall e, mgood e -> 0 <= eX en < cW (lC e) -> 0 <= eY en < cH (lC e) ->
  exists l e' qs', mpreds_loop Ls e en qs = Ok (l, e') /\ mgood e' /\ ext e e' /\ qs' `sublist_of` qs /\
    Forall2 (fun r q => exists u, at_pose e' r.1 u /\ mback e q u (pose_of en) r.2) l qs' /\
    forall q u c, q ∈ qs -> mback e q u (pose_of en) c -> q ∈ qs'.
Proof.
  induction qs as [|q qs IH]; intros Hqs e Ge Bx By.
  - exists [], e, []. simpl. split_and!; try done; apply ext_refl.
  - pose proof Ge as [[I C] LO]. assert (Hqs' : forall q, q ∈ qs -> exists p, of_angle (Z.of_nat q.1) ps !! q.2 = Some p /\ pEnd p mod N = eT en) by (intros; apply Hqs; by right). specialize (IH Hqs').
    pose proof (po_N _ _ _ OKps) as HN. pose proof (co_N _ _ _ _ C) as EN.
    destruct (Hqs q) as (p & Ep & Tp); [left|].
    destruct (angle_nth_in _ _ _ _ Ep) as [Pin Pst]. pose proof (po_start _ _ _ OKps p Pin) as HS.
    destruct (co_act _ _ _ _ C (Z.of_nat q.1) _ _ ltac:(lia) Ep) as (a & Ea & Aok). 
    destruct (mind e (Z.of_nat q.1) _ _ _ (mg_good _ Ge) ltac:(lia) Ep Ea) as [Hik Eai].
    pose proof (po_end _ _ _ OKps p Pin) as HE. pose proof (po_cost _ _ _ OKps p Pin) as HC.
    simpl. rewrite Ea. simpl. pose proof Aok as (A1 & A2 & A3 & A4 & A5 & A6 & A7).
    rewrite A1, A2, A3.
    destruct (mValid_spec e I N k Ls LO (eX en - pX p) (eY en - pY p)) as (b & Eb & Hb). rewrite Eb. simpl.
    destruct (mCost_spec e I N k Ls LO (eX en - pX p) (eY en - pY p) a p q.2 Aok HC HS Hik Eai) as (c0 & Ec & Hc).
    assert (EU : forall u c, mback e q u (pose_of en) c -> u = (eX en - pX p, eY en - pY p, pStart p)).
    { intros u c (Eq & p' & Ep' & A & _). rewrite Eq, Ep in Ep'. injection Ep' as <-. destruct u as [[ux uy] ut]; simpl in *. unfold shift in A. simpl in A. injection A as -> ->. subst ut. f_equal; [f_equal; lia|done]. }
    assert (SKIP : (forall u c, ~ mback e q u (pose_of en) c) ->
      exists l e' qs', mpreds_loop Ls e en qs = Ok (l, e') /\ mgood e' /\ ext e e' /\ qs' `sublist_of` (q :: qs) /\
    Forall2 (fun r q => exists u, at_pose e' r.1 u /\ mback e q u (pose_of en) r.2) l qs' /\
    forall q0 u c, q0 ∈ q :: qs -> mback e q0 u (pose_of en) c -> q0 ∈ qs').
    { intros HNo. destruct (IH e Ge Bx By) as (l & e' & qs' & E & G' & X & S & F & Hl). exists l, e', qs'. split_and!; try done; [by apply sublist_cons|].
      intros q0 u c [-> |Hq]%elem_of_cons Hbk; [by apply HNo in Hbk|eauto]. }
    destruct b; simpl.
    2: { apply SKIP. intros u c Hw. rewrite (EU _ _ Hw) in Hw. destruct Hw as (_ & Hw). apply medge_start_free in Hw. destruct Hb as [_ Hb]. discriminate (Hb Hw). }
    rewrite Ec. simpl. destruct (c0 >=? INFINITECOST) eqn:Q.
    { apply SKIP. intros u c Hw. rewrite (EU _ _ Hw) in Hw. destruct Hw as (Eq & p' & Ep' & _ & _ & X & m & Gm & -> & Lt). simpl in *. rewrite Pst, Ep in Ep'. injection Ep' as <-.
      destruct Hc as [(X' & m' & Gm' & HH)|[nX _]]; [|done]. pose proof (mgreatest_fun _ _ _ _ _ Gm Gm') as ->. lia. }
    destruct Hc as [(X & m & Gm & Em)|[_ ?]]; [|lia]. assert (Em' : c0 = pCost p * (m + 1)) by lia. clear Em.
    destruct (free_in e (eX en - pX p) (eY en - pY p) I (proj1 (proj1 Hb eq_refl))) as [Cx Cy].
    destruct (lState_spec e (eX en - pX p) (eY en - pY p) (pStart p) I) as (id & e1 & en1 & E1 & I1 & X1 & T1 & P1).
    { apply inrange_iff. rewrite EN. lia. }
    rewrite E1. simpl. assert (G1 : mgood e1) by (exact (mgood_ext e e1 Ge I1 X1)). destruct (IH e1 G1) as (l & e' & qs' & E & G' & X' & S & F & Hl).
    { by rewrite (x_C _ _ X1). } { by rewrite (x_C _ _ X1). }
    rewrite E. simpl. eexists _, e', (q :: qs'). split_and!; [done|done|by eapply ext_trans|by apply sublist_skip| |].
    + constructor.
      * exists (eX en - pX p, eY en - pY p, pStart p). split; [eapply at_ext; [done|]; by exists en1|]. split; [done|]. exists p.
        simpl. split_and!; [by rewrite Pst|unfold shift; simpl; f_equal; lia|done|done|]. exists m. split_and!; [done|done|lia].
      * eapply Forall2_impl; [done|]. intros r q' (u & Au & Hbk). exists u. split; [done|]. by apply (mback_ext e e1).
    + intros q0 u c [-> |Hq]%elem_of_cons Hbk; [left|]. right. eapply Hl; [done|]. by apply (mback_ext e e1).
Qed.
Lemma mPreds_spec e id v : mgood e -> at_pose e id v ->
  exists l e' qs, mPreds Ls e id = Ok (l, e') /\ mgood e' /\ ext e e' /\ NoDup qs /\
    Forall2 (fun r q => exists u, at_pose e' r.1 u /\ mback e q u v r.2) l qs /\
    forall q u c, mback e q u v c -> q ∈ qs.
Proof.
  intros Ge A. pose proof (at_range _ _ _ _ _ _ (mg_good _ Ge) A) as (Rx & Ry & Rt). destruct A as (en & E & P). pose proof Ge as [[I C] _]. unfold mPreds, lCoord. rewrite E. simpl. subst v. simpl in *.
  destruct (co_pred _ _ _ _ C (eT en) Rt) as (qs & Eq & ND & Hq). rewrite Eq. simpl.
  destruct (mpreds_loop_spec en qs) with (e := e) as (l & e' & qs' & El & G' & X & S & F & Hl); try done.
  { intros [u i] Hu. simpl. apply Hq in Hu. done. }
  exists l, e', qs'. split_and!; try done. { by eapply sublist_nodup. }
  intros [a i] u c Hb. eapply Hl; [|done]. destruct Hb as (Eu & p & Ep & _ & E2 & _). simpl in *. apply Hq. exists p. rewrite <- Eu. done.
Qed.
Lemma medge_angle e i u v c : medge e i u v c -> 0 <= u.2 < N.
Proof. intros (p & Ep & _). destruct (angle_nth_in _ _ _ _ Ep) as [Pin <-]. by apply (po_start _ _ _ OKps). Qed.
Lemma mPreds_in e id v : mgood e -> at_pose e id v ->
  exists l e', mPreds Ls e id = Ok (l, e') /\ mgood e' /\ ext e e' /\ forall u c, (exists j, at_pose e' j u /\ (j, c) ∈ l) <-> exists i, medge e i u v c.
Proof.
  intros Ge A. destruct (mPreds_spec e id v Ge A) as (l & e' & qs & E & G' & X & ND & F & Hl). exists l, e'. split_and!; try done.
  intros u c. split.
  - intros (i & Ai & Hi). apply elem_of_list_lookup in Hi as [n Hn]. destruct (Forall2_lookup_l _ _ _ _ _ F Hn) as (q & _ & u' & Au' & _ & Hb).
    simpl in *. rewrite (at_fun _ _ _ _ Ai Au'). eauto.
  - intros [i Hp]. pose proof (medge_angle _ _ _ _ _ Hp) as Ru.
    assert (Hb : mback e (Z.to_nat u.2, i) u v c). { split; [simpl; lia|done]. }
    pose proof (Hl _ _ _ Hb) as Hq. apply elem_of_list_lookup in Hq as [n Hn]. destruct (Forall2_lookup_r _ _ _ _ _ F Hn) as (r & Hr & u' & Au' & Eu' & Hb'). simpl in *.
    assert (u' = u) as ->.
    { destruct Hp as (p & Ep & A1 & _), Hb' as (p' & Ep' & A2 & _). rewrite Z2Nat.id in Eu' by lia. rewrite Eu', Ep in Ep'. injection Ep' as <-.
      rewrite A1 in A2. unfold shift in A2. destruct u as [[? ?] ?], u' as [[? ?] ?]; simpl in *. injection A2 as ? ?. f_equal; [f_equal|]; [lia|lia|congruence]. }
    destruct (medge_fun _ _ _ _ _ _ _ Hp Hb') as [_ Ecc].
    exists r.1. split; [done|]. apply elem_of_list_lookup. exists n. rewrite Hr. destruct r; simpl in *. by rewrite Ecc.
Qed.

(** *** GetLazySuccs and GetLazyPreds *)
Lemma mleads_fun e i u v v' c c' : mleads e i u v c -> mleads e i u v' c' -> v = v' /\ c = c'.
Proof. intros (p & Ep & A1 & A2 & _ & A3) (p' & Ep' & B1 & B2 & _ & B3). rewrite Ep in Ep'. injection Ep' as <-. split; [|congruence]. destruct v, v'; simpl in *; congruence. Qed.
Lemma mlazy_loop_spec en is : 0 <= eT en < N -> (forall i, i ∈ is -> (i < k)%nat) -> forall e, mgood e ->
  exists l e', mlazy_loop Ls e en is = Ok (l, e') /\ mgood e' /\ ext e e' /\
    (forall i w c, i ∈ is -> mleads e i (pose_of en) w c -> exists v, at_pose e' v w) /\
    forall v c, (v, c) ∈ l <-> exists i w, i ∈ is /\ at_pose e' v w /\ mleads e i (pose_of en) w c.
Proof.
  intros Ht. induction is as [|i is IH]; intros His e Ge.
  - exists [], e. simpl. split_and!; try done; [apply ext_refl|by intros ? ? ? H%elem_of_nil|]. intros v c. split; [by intros H%elem_of_nil|]. intros (i & w & H & _). by apply elem_of_nil in H.
  - pose proof Ge as [[I C] LO]. assert (His' : forall i, i ∈ is -> (i < k)%nat) by (intros; apply His; by right). specialize (IH His').
    pose proof (po_N _ _ _ OKps) as HN. pose proof (co_N _ _ _ _ C) as EN.
    destruct (lookup_lt_is_Some_2 (of_angle (eT en) ps) i) as [p Ep]. { rewrite (po_uniform _ _ _ OKps) by lia. apply His. left. }
    destruct (co_act _ _ _ _ C _ _ _ Ht Ep) as (a & Ea & Aok). destruct (angle_nth_in _ _ _ _ Ep) as [Pin Pst].
    pose proof (po_end _ _ _ OKps p Pin) as HE. pose proof (po_cost _ _ _ OKps p Pin) as HC.
    simpl. rewrite Ea. simpl. pose proof Aok as (A1 & A2 & A3 & A4 & A5 & A6 & A7).
    rewrite A2, A3, A4, A5. rewrite normtheta_ok by lia. simpl. rewrite EN.
    destruct (mValid_spec e I N k Ls LO (eX en + pX p) (eY en + pY p)) as (b & Eb & Hb). rewrite Eb. simpl. destruct b; simpl.
    2: { destruct (IH e Ge) as (l & e' & E & G' & X & Hc & Hl). exists l, e'.
      assert (HNo : forall w c, ~ mleads e i (pose_of en) w c). { intros w c (p' & Ep' & F1 & _ & F & _). simpl in Ep'. rewrite Ep in Ep'. injection Ep' as <-. rewrite F1 in F. destruct Hb as [_ Hb]. discriminate (Hb F). }
      split_and!; try done.
      { intros j w c [-> |Hj]%elem_of_cons H2; [|eauto]. by apply HNo in H2. }
      intros v c. rewrite Hl. split.
      - intros (j & w & Hj & H). exists j, w. split; [by right|done].
      - intros (j & w & [-> |Hj]%elem_of_cons & H1 & H2); [|exists j, w; done]. by apply HNo in H2. }
    pose proof (Z.mod_pos_bound (pEnd p) N ltac:(lia)) as HB.
    destruct (free_in e (eX en + pX p) (eY en + pY p) I (proj1 (proj1 Hb eq_refl))) as [Bx By].
    destruct (lState_spec e (eX en + pX p) (eY en + pY p) (pEnd p mod N) I) as (id & e1 & en1 & E1 & I1 & X1 & T1 & P1).
    { apply inrange_iff. rewrite EN. lia. }
    rewrite E1. simpl. assert (G1 : mgood e1) by (exact (mgood_ext e e1 Ge I1 X1)). destruct (IH e1 G1) as (l & e' & E & G' & X' & Hc & Hl).
    rewrite E. simpl. eexists _, e'. split_and!; [done|done|by eapply ext_trans| |].
    { intros j w c [-> |Hj]%elem_of_cons Hq; [|eapply Hc; [done|by apply (mleads_ext e e1)]].
      exists id. eapply at_ext; [done|]. exists en1. split; [done|]. rewrite P1. destruct Hq as (p' & Ep' & B1 & B2 & _). simpl in Ep'. rewrite Ep in Ep'. injection Ep' as <-. destruct w; simpl in *. rewrite B1, B2. done. }
    assert (AT : at_pose e' id (eX en + pX p, eY en + pY p, pEnd p mod N)). { eapply at_ext; [done|]. exists en1. done. }
    assert (ED : mleads e i (pose_of en) (eX en + pX p, eY en + pY p, pEnd p mod N) (pCost p)).
    { exists p. split_and!; try done; by apply Hb. }
    replace (toi32 (pCost p)) with (pCost p) by (unfold toi32; rewrite Z.mod_small; lia).
    intros v c. rewrite elem_of_cons, Hl. split.
    + intros [[= -> ->]|(j & w & Hj & Aw & Hw)].
      * exists i, (eX en + pX p, eY en + pY p, pEnd p mod N). split_and!; try done. left.
      * exists j, w. split_and!; [by right|done|]. by apply (mleads_ext e e1).
    + intros (j & w & [-> |Hj]%elem_of_cons & Aw & Hw).
      * left. destruct (mleads_fun _ _ _ _ _ _ _ ED Hw) as [<- <-]. rewrite (at_inj e' v id _ (g_inv _ _ _ _ (mg_good _ G')) Aw AT). congruence.
      * right. exists j, w. split_and!; try done. by apply (mleads_ext e e1).
Qed.
Lemma mLazySuccs_spec e id u b : mgood e -> at_pose e id u -> id <> lGoal e ->
  exists l e', mLazySuccs Ls e id b = Ok (l, b ++ replicate (length l) false, e') /\ mgood e' /\ ext e e' /\
    (forall i w c, mleads e i u w c -> exists v, at_pose e' v w) /\
    forall v c, (v, c) ∈ l <-> exists i w, at_pose e' v w /\ mleads e i u w c.
Proof.
  intros Ge (en & E & P) Hg. pose proof Ge as [[I C] _]. unfold mLazySuccs. destruct (Nat.eqb_spec id (lGoal e)); [done|]. unfold lCoord. rewrite E. simpl.
  rewrite (co_k _ _ _ _ C). pose proof (li_range _ I _ _ E) as R. rewrite inrange_iff, (co_N _ _ _ _ C) in R. subst u. simpl.
  assert (LT : forall i w c, mleads e i (pose_of en) w c -> (i < k)%nat) by (intros i w c (p & Ep & _); eapply place_lt; [|done]; simpl; lia).
  destruct (mlazy_loop_spec en (seq 0 k)) with (e := e) as (l & e' & El & G' & X & Hc & Hl); [lia| |done|].
  { intros i. rewrite elem_of_seq. lia. }
  rewrite El. simpl. exists l, e'. split_and!; try done.
  { by rewrite map_false. }
  { intros i w c Hp. eapply (Hc i); [|done]. apply elem_of_seq. apply LT in Hp. lia. }
  intros v c. rewrite Hl. split.
  - intros (i & w & Hi & H). exists i, w. done.
  - intros (i & w & H1 & H2). exists i, w. split; [|done]. apply elem_of_seq. apply LT in H2. lia.
Qed.
Definition mbackl (e : lat) (q : nat * nat) (u v : pose) (c : Z) : Prop := u.2 = Z.of_nat q.1 /\ mleadsb e q.2 u v c.
Lemma mbackl_ext e e' q u v c : ext e e' -> mbackl e' q u v c <-> mbackl e q u v c.
Proof. intros X. unfold mbackl. by rewrite (mleadsb_ext e e'). Qed.
Lemma mbackl_fun e q u u' v c c' : mbackl e q u v c -> mbackl e q u' v c' -> u = u' /\ c = c'.
Proof.
  intros (Q & p & Ep & A & _ & _ & C) (Q' & p' & Ep' & A' & _ & _ & C'). rewrite Q' in Ep'. rewrite Q, Ep' in Ep. injection Ep as <-. split; [|congruence]. rewrite A in A'. unfold shift in A'.
  destruct u as [[? ?] ?], u' as [[? ?] ?]; simpl in *. injection A' as ? ?. f_equal; [f_equal|]; [lia|lia|congruence].
Qed.
Lemma mlazyp_loop_spec en qs : (forall q, q ∈ qs -> exists p, of_angle (Z.of_nat q.1) ps !! q.2 = Some p /\ pEnd p mod N = eT en) ->
  forall e, mgood e -> 0 <= eX en < cW (lC e) -> 0 <= eY en < cH (lC e) ->
  exists l e', mlazyp_loop Ls e en qs = Ok (l, e') /\ mgood e' /\ ext e e' /\
    (forall q w c, q ∈ qs -> mbackl e q w (pose_of en) c -> exists v, at_pose e' v w) /\
    forall v c, (v, c) ∈ l <-> exists q w, q ∈ qs /\ at_pose e' v w /\ mbackl e q w (pose_of en) c.
Proof.
  induction qs as [|q qs IH]; intros Hqs e Ge Bx By.
  - exists [], e. simpl. split_and!; try done; [apply ext_refl|by intros ? ? ? H%elem_of_nil|]. intros v c. split; [by intros H%elem_of_nil|]. intros (i & w & H & _). by apply elem_of_nil in H.
  - pose proof Ge as [[I C] LO]. assert (Hqs' : forall q, q ∈ qs -> exists p, of_angle (Z.of_nat q.1) ps !! q.2 = Some p /\ pEnd p mod N = eT en) by (intros; apply Hqs; by right). specialize (IH Hqs').
    pose proof (po_N _ _ _ OKps) as HN. pose proof (co_N _ _ _ _ C) as EN.
    destruct (Hqs q) as (p & Ep & Tp); [left|].
    destruct (angle_nth_in _ _ _ _ Ep) as [Pin Pst]. pose proof (po_start _ _ _ OKps p Pin) as HS.
    destruct (co_act _ _ _ _ C (Z.of_nat q.1) _ _ ltac:(lia) Ep) as (a & Ea & Aok).
    pose proof (po_cost _ _ _ OKps p Pin) as HC.
    simpl. rewrite Ea. simpl. pose proof Aok as (A1 & A2 & A3 & A4 & A5 & A6 & A7). rewrite A1, A2, A3, A5.
    destruct (mValid_spec e I N k Ls LO (eX en - pX p) (eY en - pY p)) as (b & Eb & Hb). rewrite Eb. simpl.
    assert (EU : forall u c, mbackl e q u (pose_of en) c -> u = (eX en - pX p, eY en - pY p, pStart p)).
    { intros u c (Eq & p' & Ep' & A & _). rewrite Eq, Ep in Ep'. injection Ep' as <-. destruct u as [[ux uy] ut]; simpl in *. unfold shift in A. simpl in A. injection A as -> ->. subst ut. f_equal; [f_equal; lia|done]. }
    destruct b; simpl.
    2: { destruct (IH e Ge Bx By) as (l & e' & E & G' & X & Hc & Hl). exists l, e'.
      assert (HNo : forall w c, ~ mbackl e q w (pose_of en) c). { intros w c Hw. rewrite (EU _ _ Hw) in Hw. destruct Hw as (_ & p' & _ & _ & _ & F & _). destruct Hb as [_ Hb]. discriminate (Hb F). }
      split_and!; try done.
      { intros j w c [-> |Hj]%elem_of_cons H2; [|eauto]. by apply HNo in H2. }
      intros v c. rewrite Hl. split.
      - intros (j & w & Hj & H). exists j, w. split; [by right|done].
      - intros (j & w & [-> |Hj]%elem_of_cons & H1 & H2); [|exists j, w; done]. by apply HNo in H2. }
    destruct (free_in e (eX en - pX p) (eY en - pY p) I (proj1 (proj1 Hb eq_refl))) as [Cx Cy].
    destruct (lState_spec e (eX en - pX p) (eY en - pY p) (pStart p) I) as (id & e1 & en1 & E1 & I1 & X1 & T1 & P1).
    { apply inrange_iff. rewrite EN. lia. }
    rewrite E1. simpl. assert (G1 : mgood e1) by (exact (mgood_ext e e1 Ge I1 X1)). destruct (IH e1 G1) as (l & e' & E & G' & X' & Hc & Hl).
    { by rewrite (x_C _ _ X1). } { by rewrite (x_C _ _ X1). }
    rewrite E. simpl. eexists _, e'. split_and!; [done|done|by eapply ext_trans| |].
    { intros j w c [-> |Hj]%elem_of_cons Hq; [|eapply Hc; [done|by apply (mbackl_ext e e1)]].
      exists id. eapply at_ext; [done|]. exists en1. split; [done|]. rewrite P1. by rewrite (EU _ _ Hq). }
    assert (AT : at_pose e' id (eX en - pX p, eY en - pY p, pStart p)). { eapply at_ext; [done|]. by exists en1. }
    assert (ED : mbackl e q (eX en - pX p, eY en - pY p, pStart p) (pose_of en) (pCost p)).
    { split; [done|]. exists p. simpl. split_and!; [by rewrite Pst|unfold shift; simpl; f_equal; lia|done|by apply Hb|done]. }
    replace (toi32 (pCost p)) with (pCost p) by (unfold toi32; rewrite Z.mod_small; lia).
    intros v c. rewrite elem_of_cons, Hl. split.
    + intros [[= -> ->]|(j & w & Hj & Aw & Hw)].
      * exists q, (eX en - pX p, eY en - pY p, pStart p). split_and!; try done. left.
      * exists j, w. split_and!; [by right|done|]. by apply (mbackl_ext e e1).
    + intros (j & w & [-> |Hj]%elem_of_cons & Aw & Hw).
      * left. destruct (mbackl_fun _ _ _ _ _ _ _ ED Hw) as [<- <-]. rewrite (at_inj e' v id _ (g_inv _ _ _ _ (mg_good _ G')) Aw AT). congruence.
      * right. exists j, w. split_and!; try done. by apply (mbackl_ext e e1).
Qed.
Lemma mLazyPreds_spec e id v b : mgood e -> at_pose e id v ->
  exists l e', mLazyPreds Ls e id b = Ok (l, b ++ replicate (length l) false, e') /\ mgood e' /\ ext e e' /\
    (forall i w c, mleadsb e i w v c -> exists u, at_pose e' u w) /\
    forall u c, (u, c) ∈ l <-> exists i w, at_pose e' u w /\ mleadsb e i w v c.
Proof.
  intros Ge A. pose proof (at_range _ _ _ _ _ _ (mg_good _ Ge) A) as (Rx & Ry & Rt). destruct A as (en & E & P). pose proof Ge as [[I C] _]. unfold mLazyPreds, lCoord. rewrite E. simpl. subst v. simpl in *.
  destruct (co_pred _ _ _ _ C (eT en) Rt) as (qs & Eq & ND & Hq). rewrite Eq. simpl.
  destruct (mlazyp_loop_spec en qs) with (e := e) as (l & e' & El & G' & X & Hc & Hl); try done.
  { intros [u i] Hu. simpl. apply Hq in Hu. done. }
  assert (IN : forall i w c, mleadsb e i w (pose_of en) c -> (Z.to_nat w.2, i) ∈ qs /\ mbackl e (Z.to_nat w.2, i) w (pose_of en) c).
  { intros i w c Hw. pose proof Hw as (p & Ep & _ & E2 & _). destruct (angle_nth_in _ _ _ _ Ep) as [Pin Ps]. pose proof (po_start _ _ _ OKps p Pin). split.
    - apply Hq. exists p. rewrite Z2Nat.id by lia. done.
    - split; [simpl; lia|done]. }
  rewrite El. simpl. exists l, e'. split_and!; try done.
  { by rewrite map_false. }
  { intros i w c Hp. destruct (IN _ _ _ Hp). by eapply Hc. }
  intros u c. rewrite Hl. split.
  - intros (q & w & _ & H1 & _ & H2). exists q.2, w. done.
  - intros (i & w & H1 & H2). destruct (IN _ _ _ H2). eauto 10.
Qed.

(** *** GetTrueCost *)
Definition mtc_result (e : lat) (i : nat) (u v : pose) (r : lres Z) : Prop := (exists c, medge e i u v c /\ r = Ok c) \/ ((forall c, ~ medge e i u v c) /\ r = Ok (-1)).
Lemma mtruecost_loop_spec e en child v is : mgood e -> at_pose e child v -> 0 <= eT en < N -> (forall i, i ∈ is -> (i < k)%nat) ->
  (mtruecost_loop Ls e en child is = Exn () /\ forall i c, i ∈ is -> ~ mleads e i (pose_of en) v c) \/
  (exists i c, i ∈ is /\ mleads e i (pose_of en) v c /\ (forall j c', j ∈ is -> (j < i)%nat -> ~ mleads e j (pose_of en) v c') /\ mtc_result e i (pose_of en) v (mtruecost_loop Ls e en child is)) \/ ~ StronglySorted lt is.
Proof.
  intros Ge Av Ht. pose proof Ge as [[I C] LO]. induction is as [|i is IH]; intros His.
  - left. split; [done|]. intros ? ? H. by apply elem_of_nil in H.
  - assert (His' : forall i, i ∈ is -> (i < k)%nat) by (intros; apply His; by right). specialize (IH His').
    pose proof (po_N _ _ _ OKps) as HN. pose proof (co_N _ _ _ _ C) as EN.
    destruct (lookup_lt_is_Some_2 (of_angle (eT en) ps) i) as [p Ep]. { rewrite (po_uniform _ _ _ OKps) by lia. apply His. left. }
    destruct (co_act _ _ _ _ C _ _ _ Ht Ep) as (a & Ea & Aok). destruct (angle_nth_in _ _ _ _ Ep) as [Pin Pst].
    pose proof (po_end _ _ _ OKps p Pin) as HE. pose proof (po_cost _ _ _ OKps p Pin) as HC.
    destruct (mind e _ _ _ _ (mg_good _ Ge) Ht Ep Ea) as [Hik Eai].
    simpl. rewrite Ea. simpl. pose proof Aok as (A1 & A2 & A3 & A4 & A5 & A6 & A7).
    rewrite A2, A3, A4. rewrite normtheta_ok by lia. simpl. rewrite EN.
    destruct (mValid_spec e I N k Ls LO (eX en + pX p) (eY en + pY p)) as (b & Eb & Hb). rewrite Eb. simpl.
    assert (SKIP : (forall c, ~ mleads e i (pose_of en) v c) -> 
      (mtruecost_loop Ls e en child is = Exn () /\ forall j c, j ∈ i :: is -> ~ mleads e j (pose_of en) v c) \/
      (exists j c, j ∈ i :: is /\ mleads e j (pose_of en) v c /\ (forall j' c', j' ∈ i :: is -> (j' < j)%nat -> ~ mleads e j' (pose_of en) v c') /\ mtc_result e j (pose_of en) v (mtruecost_loop Ls e en child is)) \/ ~ StronglySorted lt (i :: is)).
    { intros Nl. destruct IH as [[E H]|[(j & c & Hj & H1 & H2 & H3)|H]].
      - left. split; [done|]. intros j c [-> |Hj]%elem_of_cons; [done|eauto].
      - right. left. exists j, c. split_and!; [by right|done| |done]. intros j' c' [-> |Hj']%elem_of_cons Hlt; [done|eauto].
      - right. right. intros S. apply H. by inversion S. }
    assert (MLP : forall c, mleads e i (pose_of en) v c -> v = (eX en + pX p, eY en + pY p, pEnd p mod N) /\ mfree Ls e v.1).
    { intros c (p' & Ep' & F1 & F2 & F & _). simpl in Ep'. rewrite Ep in Ep'. injection Ep' as <-. split; [|done]. destruct v; simpl in *. rewrite F1, F2. done. }
    destruct b; simpl.
    2: { apply SKIP. intros c Hm. destruct (MLP _ Hm) as [Ev F]. rewrite Ev in F. destruct Hb as [_ Hb]. discriminate (Hb F). }
    destruct (lGet_spec e (eX en + pX p) (eY en + pY p) (pEnd p mod N) I) as (r & Er & Hr). rewrite Er. simpl.
    destruct r as [id|].
    2: { apply SKIP. intros c Hm. destruct (MLP _ Hm) as [Ev _]. destruct Av as (en' & E' & P'). assert (None = Some child); [|done].
      apply Hr. exists en'. split; [done|]. by rewrite P'. }
    destruct (Nat.eqb_spec id child) as [-> |Hne]; simpl.
    2: { apply SKIP. intros c Hm. destruct (MLP _ Hm) as [Ev _]. destruct Av as (en' & E' & P'). apply Hne. assert (Some id = Some child); [|congruence].
      apply Hr. exists en'. split; [done|]. by rewrite P'. }
    assert (EV : v = (eX en + pX p, eY en + pY p, pEnd p mod N)).
    { destruct (proj1 (Hr child) eq_refl) as (en' & E' & P'). eapply at_fun; [done|]. by exists en'. }
    destruct (mCost_spec e I N k Ls LO (eX en) (eY en) a p i Aok HC ltac:(lia) Hik Eai) as (c0 & Ec & Hc). rewrite Pst in Hc. rewrite Ec. simpl.
    right. destruct (decide (Forall (lt i) is)) as [Hso|Hso]. 2: { right. intros S. apply Hso. by inversion S. }
    left. exists i, (pCost p). split_and!; [left| | |].
    { subst v. exists p. split_and!; try done; by apply Hb. }
    { intros j c' [-> |Hj]%elem_of_cons Hlt; [lia|]. rewrite Forall_forall in Hso. apply Hso in Hj. lia. }
    destruct (c0 >=? INFINITECOST) eqn:Q.
    + right. split; [|done]. intros c (p' & Ep' & _ & _ & X & m & Gm & -> & Lt). simpl in *. rewrite Ep in Ep'. injection Ep' as <-. destruct Hc as [(X' & m' & Gm' & HH)|[nX _]]; [|done].
      pose proof (mgreatest_fun _ _ _ _ _ Gm Gm') as ->. lia.
    + left. exists c0. split; [|done]. destruct Hc as [(X & m & Gm & Em)|[_ ?]]; [|lia].
      subst v. exists p. split_and!; try done. exists m. split_and!; [done|lia|lia].
Qed.
Lemma seq_sorted n m : StronglySorted lt (seq m n).
Proof. revert m. induction n as [|n IH]; intros m; simpl; constructor; [done|]. apply Forall_forall. intros x Hx. apply elem_of_seq in Hx. lia. Qed.
Lemma mTrueCost_spec e i j u v : mgood e -> at_pose e i u -> at_pose e j v ->
  (mTrueCost Ls e i j = Exn () /\ forall n c, ~ mleads e n u v c) \/
  (exists n c, mleads e n u v c /\ (forall n' c', (n' < n)%nat -> ~ mleads e n' u v c') /\ mtc_result e n u v (mTrueCost Ls e i j)).
Proof.
  intros Ge Au Av. pose proof (at_range _ _ _ _ _ _ (mg_good _ Ge) Au) as (_ & _ & Rt). destruct Au as (en & E & P). pose proof Av as (en' & E' & P').
  unfold mTrueCost, lCoord. rewrite E, E'. simpl. rewrite (co_k _ _ _ _ (g_cfg _ _ _ _ (mg_good _ Ge))). subst u. simpl in Rt.
  assert (LT : forall n c, mleads e n (pose_of en) v c -> n ∈ seq 0 k). { intros n c (p & Ep & _). apply elem_of_seq. apply (place_lt (eT en)) in Ep; [lia|done]. }
  destruct (mtruecost_loop_spec e en j v (seq 0 k) Ge Av Rt) as [[-> H]|[(n & c & Hn & L & F & H)|H]].
  { intros n. rewrite elem_of_seq. lia. }
  - left. split; [done|]. intros n c L. apply (H n c); [by eapply LT|done].
  - right. exists n, c. split_and!; [done| |done]. intros n' c' Hlt L'. by apply (F n' c' (LT _ _ L') Hlt).
  - exfalso. apply H. apply seq_sorted.
Qed.
End run.
