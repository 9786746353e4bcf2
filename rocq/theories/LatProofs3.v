(** Lemmas for C37 - C44: successors, predecessors, their lazy versions, changed edges, histories of calls. *)
From Verif Require Import Base NavModel LatModel LatSpec LatProofs LatProofs2.
Local Open Scope Z_scope.

Lemma at_ext e e' id u : ext e e' -> at_pose e id u -> at_pose e' id u.
Proof. intros X (en & E & P). exists en. split; [by eapply ext_tab|done]. Qed.
Lemma at_fun e id u u' : at_pose e id u -> at_pose e id u' -> u = u'.
Proof. intros (a & E & P) (b & E' & P'). congruence. Qed.
Lemma at_inj e i j u : linv e -> at_pose e i u -> at_pose e j u -> i = j.
Proof. intros I (a & E & P) (b & E' & P'). eapply (li_inj _ I); eauto. congruence. Qed.

Lemma sublist_nodup {A} (l k : list A) : l `sublist_of` k -> NoDup k -> NoDup l.
Proof.
  induction 1 as [|x l k S IH|x l k S IH]; intros ND; [done| |].
  - apply NoDup_cons in ND as [Nx ND]. apply NoDup_cons. split; [|by apply IH]. intros Hx. apply Nx. by eapply elem_of_submseteq; [|apply sublist_submseteq].
  - apply NoDup_cons in ND as [Nx ND]. by apply IH.
Qed.

Section run.
Context (N : Z) (k : nat) (ps : list prim) (OKps : prims_ok N k ps).
Record good (e : lat) : Prop := mkGood { g_inv : linv e; g_cfg : cfg_ok N k ps (lC e) }.
Lemma good_ext e e' : good e -> linv e' -> ext e e' -> good e'.
Proof. intros [I C] I' X. split; [done|]. rewrite (x_C _ _ X). done. Qed.
Lemma edge_ext e e' p u v c : ext e e' -> edge N ps e' p u v c <-> edge N ps e p u v c.
Proof. intros X. unfold edge. rewrite (x_C _ _ X), (x_grid _ _ X). done. Qed.
Lemma angle_nth_in t i p : of_angle t ps !! i = Some p -> p ∈ ps /\ pStart p = t.
Proof. intros E. apply elem_of_list_lookup_2 in E. by apply of_angle_in. Qed.
Lemma greatest_fun g s p m m' : greatest g s p m -> greatest g s p m' -> m = m'.
Proof. intros [(c & Hc & E) U] [(c' & Hc' & E') U']. pose proof (U _ _ Hc' E'). pose proof (U' _ _ Hc E). lia. Qed.
Lemma edge_fun e p u v v' c c' : edge N ps e p u v c -> edge N ps e p u v' c' -> v = v' /\ c = c'.
Proof.
  intros (_ & _ & A1 & A2 & _ & m & G & A3 & _) (_ & _ & B1 & B2 & _ & m' & G' & B3 & _). pose proof (greatest_fun _ _ _ _ _ G G') as ->.
  split; [|congruence]. destruct v, v'; simpl in *. congruence.
Qed.
Lemma edge_end_free e p u v c : edge N ps e p u v c -> free (lGrid e) (cObs (lC e)) v.1.
Proof. intros (_ & _ & A1 & _ & X & _). rewrite A1. by destruct X as (_ & ? & _). Qed.
Lemma edge_start_free e p u v c : edge N ps e p u v c -> free (lGrid e) (cObs (lC e)) u.1.
Proof. intros (_ & _ & _ & _ & X & _). by destruct X as (? & _). Qed.
Lemma free_in e x y : linv e -> free (lGrid e) (cObs (lC e)) (x, y) -> 0 <= x < cW (lC e) /\ 0 <= y < cH (lC e).
Proof. intros I (v & G & _). apply (li_grid _ I) in G. tauto. Qed.

(** *** GetSuccs *)
Lemma succs_loop_spec en is : 0 <= eT en < N -> (forall i, i ∈ is -> (i < k)%nat) -> forall e, good e ->
  exists l e', succs_loop e en is = Ok (l, e') /\ good e' /\ ext e e' /\ l.*2 `sublist_of` (pair (Z.to_nat (eT en)) <$> is) /\
    (forall i p w c, i ∈ is -> of_angle (eT en) ps !! i = Some p -> edge N ps e p (pose_of en) w c -> exists v, at_pose e' v w) /\
    forall v c ti, (v, c, ti) ∈ l <-> exists i p w, i ∈ is /\ ti = (Z.to_nat (eT en), i) /\ of_angle (eT en) ps !! i = Some p /\ at_pose e' v w /\ edge N ps e p (pose_of en) w c.
Proof.
  intros Ht. induction is as [|i is IH]; intros His e Ge.
  - exists [], e. simpl. split_and!; try done; [apply ext_refl|by intros ? ? ? ? H%elem_of_nil|]. intros v c ti. split; [by intros H%elem_of_nil|]. intros (i & p & w & H & _). by apply elem_of_nil in H.
  - destruct Ge as [I C]. assert (His' : forall i, i ∈ is -> (i < k)%nat) by (intros; apply His; by right). specialize (IH His').
    pose proof (po_N _ _ _ OKps) as HN. pose proof (co_N _ _ _ _ C) as EN.
    destruct (lookup_lt_is_Some_2 (of_angle (eT en) ps) i) as [p Ep]. { rewrite (po_uniform _ _ _ OKps) by lia. apply His. left. }
    destruct (co_act _ _ _ _ C _ _ _ Ht Ep) as (a & Ea & Aok). destruct (angle_nth_in _ _ _ Ep) as [Pin Pst].
    pose proof (po_end _ _ _ OKps p Pin) as HE. pose proof (po_cost _ _ _ OKps p Pin) as HC.
    simpl. rewrite Ea. simpl. pose proof Aok as (A1 & A2 & A3 & A4 & A5 & A6 & A7).
    rewrite A2, A3, A4. rewrite normtheta_ok by lia. simpl. rewrite EN.
    destruct (lValid_spec e I (eX en + pX p) (eY en + pY p)) as (b & Eb & Hb). rewrite Eb. simpl.
    destruct (lCost_spec e I (eX en) (eY en) a p Aok HC) as (c0 & Ec & Hc). 
    assert (SKIP : (forall w c, ~ edge N ps e p (pose_of en) w c) ->
      exists l e', succs_loop e en is = Ok (l, e') /\ good e' /\ ext e e' /\ l.*2 `sublist_of` ((Z.to_nat (eT en), i) :: (pair (Z.to_nat (eT en)) <$> is)) /\
        (forall j p w c, j ∈ i :: is -> of_angle (eT en) ps !! j = Some p -> edge N ps e p (pose_of en) w c -> exists v, at_pose e' v w) /\
        forall v c ti, (v, c, ti) ∈ l <-> exists j p w, j ∈ i :: is /\ ti = (Z.to_nat (eT en), j) /\ of_angle (eT en) ps !! j = Some p /\ at_pose e' v w /\ edge N ps e p (pose_of en) w c).
    { intros HNo. destruct (IH e (mkGood e I C)) as (l & e' & E & G' & X & S & Hc' & Hl). exists l, e'. split_and!; try done; [by apply sublist_cons| |].
      { intros j q w c [-> |Hj]%elem_of_cons Eq Hq; [|eauto]. rewrite Ep in Eq. injection Eq as <-. by destruct (HNo _ _ Hq). }
      intros v c ti. rewrite Hl. split.
      - intros (j & q & w & Hj & H). exists j, q, w. split; [by right|done].
      - intros (j & q & w & [-> |Hj]%elem_of_cons & Ht' & Eq & H1 & H2); [|exists j, q, w; done]. rewrite Ep in Eq. injection Eq as <-. by destruct (HNo _ _ H2). }
    destruct b; simpl.
    2: { apply SKIP. intros w c Hw. pose proof (edge_end_free _ _ _ _ _ Hw) as F. destruct Hw as (_ & _ & Ew & _). rewrite Ew in F. destruct Hb as [_ Hb]. discriminate (Hb F). }
    rewrite Ec. simpl. destruct (c0 >=? INFINITECOST) eqn:Q.
    { apply SKIP. intros w c (_ & _ & _ & _ & X & m & Gm & -> & Lt). destruct Hc as [(X' & m' & Gm' & ->)|[nX _]]; [|done].
      pose proof (greatest_fun _ _ _ _ _ Gm Gm') as ->. lia. }
    destruct Hc as [(X & m & Gm & Em)|[_ ->]]; [|unfold INFINITECOST in Q; lia].
    pose proof (Z.mod_pos_bound (pEnd p) N ltac:(lia)) as HB.
    destruct (free_in e (eX en + pX p) (eY en + pY p) I (proj1 Hb eq_refl)) as [Bx By].
    destruct (lState_spec e (eX en + pX p) (eY en + pY p) (pEnd p mod N) I) as (id & e1 & en1 & E1 & I1 & X1 & T1 & P1).
    { apply inrange_iff. rewrite EN. lia. }
    rewrite E1. simpl. assert (G1 : good e1) by (exact (good_ext e e1 (mkGood e I C) I1 X1)). destruct (IH e1 G1) as (l & e' & E & G' & X' & S & Hc' & Hl).
    rewrite E. simpl. eexists _, e'. split_and!; [done|done|by eapply ext_trans| | |].
    { simpl. by apply sublist_skip. }
    { intros j q w c [-> |Hj]%elem_of_cons Eq Hq; [|eapply Hc'; [done|done|by apply (edge_ext e e1)]]. rewrite Ep in Eq. injection Eq as <-.
      exists id. eapply at_ext; [done|]. exists en1. split; [done|]. rewrite P1. destruct Hq as (_ & _ & B1 & B2 & _). destruct w; simpl in *. rewrite B1, B2. done. }
    assert (AT : at_pose e' id (eX en + pX p, eY en + pY p, pEnd p mod N)). { eapply at_ext; [done|]. exists en1. done. }
    assert (ED : edge N ps e p (pose_of en) (eX en + pX p, eY en + pY p, pEnd p mod N) c0).
    { split_and!; try done. exists m. split_and!; [done|done|lia]. }
    intros v c ti. rewrite elem_of_cons, Hl. split.
    + intros [[= -> -> ->]|(j & q & w & Hj & Et & Eq & Aw & Hw)].
      * exists i, p, (eX en + pX p, eY en + pY p, pEnd p mod N). split_and!; try done. left.
      * exists j, q, w. split_and!; [by right|done|done|done|]. by apply (edge_ext e e1).
    + intros (j & q & w & [-> |Hj]%elem_of_cons & Et & Eq & Aw & Hw).
      * left. rewrite Ep in Eq. injection Eq as <-. destruct (edge_fun _ _ _ _ _ _ _ ED Hw) as [<- <-]. rewrite (at_inj e' v id _ (g_inv _ G') Aw AT). congruence.
      * right. exists j, q, w. split_and!; try done. by apply (edge_ext e e1).
Qed.
Lemma lSuccs_spec e id u : good e -> at_pose e id u -> id <> lGoal e ->
  exists l e', lSuccs e id = Ok (l, e') /\ good e' /\ ext e e' /\ l.*2 `sublist_of` (pair (Z.to_nat u.2) <$> seq 0 k) /\
    (forall p w c, edge N ps e p u w c -> exists v, at_pose e' v w) /\
    forall v c ti, (v, c, ti) ∈ l <-> exists p w, ti.1 = Z.to_nat u.2 /\ of_angle u.2 ps !! ti.2 = Some p /\ at_pose e' v w /\ edge N ps e p u w c.
Proof.
  intros Ge (en & E & P) Hg. pose proof Ge as [I C]. unfold lSuccs. destruct (Nat.eqb_spec id (lGoal e)); [done|]. unfold lCoord. rewrite E. simpl.
  rewrite (co_k _ _ _ _ C). pose proof (li_range _ I _ _ E) as R. rewrite inrange_iff, (co_N _ _ _ _ C) in R. subst u. simpl.
  destruct (succs_loop_spec en (seq 0 k)) with (e := e) as (l & e' & El & G' & X & S & Hc & Hl); [lia| |done|].
  { intros i. rewrite elem_of_seq. lia. }
  exists l, e'. split_and!; try done.
  { intros p w c Hp. assert (Ep : p ∈ of_angle (eT en) ps). { apply of_angle_in. destruct Hp as (? & ? & _). done. }
    apply elem_of_list_lookup in Ep as [i Ep]. eapply (Hc i p); [|done|done]. apply elem_of_seq. apply lookup_lt_Some in Ep. rewrite (po_uniform _ _ _ OKps) in Ep; lia. }
  intros v c ti. rewrite Hl. split.
  - intros (i & p & w & Hi & -> & H1 & H2). exists p, w. done.
  - intros (p & w & H1 & H2 & H3). exists ti.2, p, w. split_and!; try tauto.
    + apply elem_of_seq. apply lookup_lt_Some in H2. rewrite (po_uniform _ _ _ OKps) in H2; lia.
    + destruct ti; simpl in *; congruence.
Qed.

(** *** GetPreds: the actions [qs] that were kept, in step with the answer. *)
Definition back (e : lat) (q : nat * nat) (u v : pose) (c : Z) : Prop := exists p, of_angle (Z.of_nat q.1) ps !! q.2 = Some p /\ edge N ps e p u v c.
Lemma preds_loop_spec en qs : (forall q, q ∈ qs -> exists p, of_angle (Z.of_nat q.1) ps !! q.2 = Some p /\ pEnd p mod N = eT en) ->
  forall e, good e -> 0 <= eX en < cW (lC e) -> 0 <= eY en < cH (lC e) ->
  exists l e' qs', preds_loop e en qs = Ok (l, e') /\ good e' /\ ext e e' /\ qs' `sublist_of` qs /\
    Forall2 (fun r q => exists u, at_pose e' r.1 u /\ back e q u (pose_of en) r.2) l qs' /\
    forall q u c, q ∈ qs -> back e q u (pose_of en) c -> q ∈ qs'.
Proof.
  induction qs as [|q qs IH]; intros Hqs e Ge Bx By.
  - exists [], e, []. simpl. split_and!; try done; apply ext_refl.
  - destruct Ge as [I C]. assert (Hqs' : forall q, q ∈ qs -> exists p, of_angle (Z.of_nat q.1) ps !! q.2 = Some p /\ pEnd p mod N = eT en) by (intros; apply Hqs; by right). specialize (IH Hqs').
    pose proof (po_N _ _ _ OKps) as HN. pose proof (co_N _ _ _ _ C) as EN.
    destruct (Hqs q) as (p & Ep & Tp); [left|].
    destruct (angle_nth_in _ _ _ Ep) as [Pin Pst]. pose proof (po_start _ _ _ OKps p Pin) as HS.
    destruct (co_act _ _ _ _ C (Z.of_nat q.1) _ _ ltac:(lia) Ep) as (a & Ea & Aok). 
    pose proof (po_end _ _ _ OKps p Pin) as HE. pose proof (po_cost _ _ _ OKps p Pin) as HC.
    simpl. rewrite Ea. simpl. pose proof Aok as (A1 & A2 & A3 & A4 & A5 & A6 & A7).
    rewrite A1, A2, A3.
    destruct (lValid_spec e I (eX en - pX p) (eY en - pY p)) as (b & Eb & Hb). rewrite Eb. simpl.
    destruct (lCost_spec e I (eX en - pX p) (eY en - pY p) a p Aok HC) as (c0 & Ec & Hc). 
    assert (EU : forall u c, back e q u (pose_of en) c -> u = (eX en - pX p, eY en - pY p, pStart p)).
    { intros u c (p' & Ep' & (_ & S' & A & _)). rewrite Ep in Ep'. injection Ep' as <-. destruct u as [[ux uy] ut]; simpl in *. unfold shift in A. simpl in A. injection A as -> ->. subst ut. f_equal. f_equal; lia. }
    assert (SKIP : (forall u c, ~ back e q u (pose_of en) c) ->
      exists l e' qs', preds_loop e en qs = Ok (l, e') /\ good e' /\ ext e e' /\ qs' `sublist_of` (q :: qs) /\
    Forall2 (fun r q => exists u, at_pose e' r.1 u /\ back e q u (pose_of en) r.2) l qs' /\
    forall q0 u c, q0 ∈ q :: qs -> back e q0 u (pose_of en) c -> q0 ∈ qs').
    { intros HNo. destruct (IH e (mkGood e I C) Bx By) as (l & e' & qs' & E & G' & X & S & F & Hl). exists l, e', qs'. split_and!; try done; [by apply sublist_cons|].
      intros q0 u c [-> |Hq]%elem_of_cons Hbk; [by apply HNo in Hbk|eauto]. }
    destruct b; simpl.
    2: { apply SKIP. intros u c Hw. rewrite (EU _ _ Hw) in Hw. destruct Hw as (p' & _ & Hw). apply edge_start_free in Hw. destruct Hb as [_ Hb]. discriminate (Hb Hw). }
    rewrite Ec. simpl. destruct (c0 >=? INFINITECOST) eqn:Q.
    { apply SKIP. intros u c Hw. rewrite (EU _ _ Hw) in Hw. destruct Hw as (p' & Ep' & _ & _ & _ & _ & X & m & Gm & -> & Lt). rewrite Ep in Ep'. injection Ep' as <-.
      destruct Hc as [(X' & m' & Gm' & ->)|[nX _]]; [|done]. pose proof (greatest_fun _ _ _ _ _ Gm Gm') as ->. lia. }
    destruct Hc as [(X & m & Gm & Em)|[_ ->]]; [|unfold INFINITECOST in Q; lia].
    destruct (free_in e (eX en - pX p) (eY en - pY p) I (proj1 Hb eq_refl)) as [Cx Cy].
    destruct (lState_spec e (eX en - pX p) (eY en - pY p) (pStart p) I) as (id & e1 & en1 & E1 & I1 & X1 & T1 & P1).
    { apply inrange_iff. rewrite EN. lia. }
    rewrite E1. simpl. assert (G1 : good e1) by (exact (good_ext e e1 (mkGood e I C) I1 X1)). destruct (IH e1 G1) as (l & e' & qs' & E & G' & X' & S & F & Hl).
    { by rewrite (x_C _ _ X1). } { by rewrite (x_C _ _ X1). }
    rewrite E. simpl. eexists _, e', (q :: qs'). split_and!; [done|done|by eapply ext_trans|by apply sublist_skip| |].
    + constructor.
      * exists (eX en - pX p, eY en - pY p, pStart p). split; [eapply at_ext; [done|]; by exists en1|]. exists p. split; [done|].
        unfold edge, via, shift, pose_of. simpl. split_and!; try done; [f_equal; lia|]. exists m. split_and!; [done|done|lia].
      * eapply Forall2_impl; [done|]. intros r q' (u & Au & p' & Ep' & Hbk). exists u. split; [done|]. exists p'. split; [done|]. by apply (edge_ext e e1).
    + intros q0 u c [-> |Hq]%elem_of_cons Hbk; [left|]. right. eapply Hl; [done|]. destruct Hbk as (p' & Ep' & Hbk). exists p'. split; [done|]. by apply (edge_ext e e1).
Qed.
Lemma edge_place e p u v c : edge N ps e p u v c -> exists i, of_angle u.2 ps !! i = Some p.
Proof. intros (Pin & Ps & _). apply elem_of_list_lookup. by apply of_angle_in. Qed.
Lemma at_range e id u : good e -> at_pose e id u -> 0 <= u.1.1 < cW (lC e) /\ 0 <= u.1.2 < cH (lC e) /\ 0 <= u.2 < N.
Proof. intros [I C] (en & E & <-). apply (li_range _ I) in E. rewrite inrange_iff, (co_N _ _ _ _ C) in E. done. Qed.
Lemma lPreds_spec e id v : good e -> at_pose e id v ->
  exists l e' qs, lPreds e id = Ok (l, e') /\ good e' /\ ext e e' /\ NoDup qs /\
    Forall2 (fun r q => exists u, at_pose e' r.1 u /\ back e q u v r.2) l qs /\
    forall q u c, back e q u v c -> q ∈ qs.
Proof.
  intros Ge A. pose proof (at_range _ _ _ Ge A) as (Rx & Ry & Rt). destruct A as (en & E & P). pose proof Ge as [I C]. unfold lPreds, lCoord. rewrite E. simpl. subst v. simpl in *.
  destruct (co_pred _ _ _ _ C (eT en) Rt) as (qs & Eq & ND & Hq). rewrite Eq. simpl.
  destruct (preds_loop_spec en qs) with (e := e) as (l & e' & qs' & El & G' & X & S & F & Hl); try done.
  { intros [u i] Hu. simpl. apply Hq in Hu. done. }
  exists l, e', qs'. split_and!; try done. { by eapply sublist_nodup. }
  intros [a i] u c Hb. eapply Hl; [|done]. destruct Hb as (p & Ep & Hb). apply Hq. exists p. split; [done|]. by destruct Hb as (_ & _ & _ & <- & _).
Qed.
(** Membership only. *)
Lemma lPreds_in e id v : good e -> at_pose e id v ->
  exists l e', lPreds e id = Ok (l, e') /\ good e' /\ ext e e' /\ forall u c, (exists i, at_pose e' i u /\ (i, c) ∈ l) <-> exists p, edge N ps e p u v c.
Proof.
  intros Ge A. destruct (lPreds_spec e id v Ge A) as (l & e' & qs & E & G' & X & ND & F & Hl). exists l, e'. split_and!; try done.
  intros u c. split.
  - intros (i & Ai & Hi). apply elem_of_list_lookup in Hi as [n Hn]. destruct (Forall2_lookup_l _ _ _ _ _ F Hn) as (q & _ & u' & Au' & p & _ & Hb).
    simpl in *. rewrite (at_fun _ _ _ _ Ai Au'). eauto.
  - intros [p Hp]. destruct (edge_place _ _ _ _ _ Hp) as [i Ei].
    assert (Ru : 0 <= u.2 < N). { destruct Hp as (Pin & <- & _). by apply (po_start _ _ _ OKps). }
    assert (Hb : back e (Z.to_nat u.2, i) u v c). { exists p. simpl. rewrite Z2Nat.id by lia. done. }
    pose proof (Hl _ _ _ Hb) as Hq. apply elem_of_list_lookup in Hq as [n Hn]. destruct (Forall2_lookup_r _ _ _ _ _ F Hn) as (r & Hr & u' & Au' & p' & Ep' & Hb').
    simpl in Ep'. rewrite Z2Nat.id in Ep' by lia. rewrite Ei in Ep'. injection Ep' as <-.
    assert (u' = u /\ r.2 = c) as [-> <-].
    { destruct Hp as (_ & S1 & A1 & _ & _ & m1 & M1 & C1 & _), Hb' as (_ & S2 & A2 & _ & _ & m2 & M2 & C2 & _).
      assert (u' = u). { rewrite A1 in A2. unfold shift in A2. destruct u as [[? ?] ?], u' as [[? ?] ?]; simpl in *. injection A2 as ? ?. f_equal; [f_equal|]; [lia|lia|congruence]. }
      subst u'. split; [done|]. rewrite C1, C2. by rewrite (greatest_fun _ _ _ _ _ M1 M2). }
    exists r.1. split; [done|]. apply elem_of_list_lookup. exists n. rewrite Hr. by destruct r.
Qed.
End run.
