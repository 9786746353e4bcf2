(** Lemmas for C37 - C44: lazy successors, true costs, actions of a path, changed edges, histories of calls. *)
From Verif Require Import Base NavModel LatModel LatSpec LatProofs LatProofs2 LatProofs3.
Local Open Scope Z_scope.

Lemma map_false {A} (l : list A) : map (fun _ => false) l = replicate (length l) false.
Proof. induction l; [done|]. simpl. by rewrite IHl. Qed.

Section run.
Context (N : Z) (k : nat) (ps : list prim) (OKps : prims_ok N k ps).
Notation good := (good N k ps).
Notation edge := (edge N ps).
Notation leads := (leads N ps).
Notation leadsb := (leadsb N ps).
Lemma leads_ext e e' p u v : ext e e' -> leads e' p u v <-> leads e p u v.
Proof. intros X. unfold leads. by rewrite (x_C _ _ X), (x_grid _ _ X). Qed.
Lemma leads_fun e p u v v' : leads e p u v -> leads e p u v' -> v = v'.
Proof. intros (_ & _ & A & B & _) (_ & _ & A' & B' & _). destruct v, v'; simpl in *; congruence. Qed.
Lemma edge_leads e p u v c : edge e p u v c -> leads e p u v.
Proof. intros H. pose proof (edge_end_free _ _ _ _ _ _ _ H). destruct H as (? & ? & ? & ? & _). done. Qed.
Lemma edge_lazy_cost e p u v c : linv e -> edge e p u v c -> pCost p <= c.
Proof.
  intros I (Pin & _ & _ & _ & _ & m & [(cc & _ & G) _] & -> & _). destruct cc as [x y]. apply (li_grid _ I) in G. pose proof (po_cost _ _ _ OKps p Pin). nia.
Qed.

Lemma lazy_loop_spec en is : 0 <= eT en < N -> (forall i, i ∈ is -> (i < k)%nat) -> forall e, good e ->
  exists l e', lazy_loop e en is = Ok (l, e') /\ good e' /\ ext e e' /\
    (forall i p w, i ∈ is -> of_angle (eT en) ps !! i = Some p -> leads e p (pose_of en) w -> exists v, at_pose e' v w) /\
    forall v c, (v, c) ∈ l <-> exists i p w, i ∈ is /\ of_angle (eT en) ps !! i = Some p /\ at_pose e' v w /\ leads e p (pose_of en) w /\ c = pCost p.
Proof.
  intros Ht. induction is as [|i is IH]; intros His e Ge.
  - exists [], e. simpl. split_and!; try done; [apply ext_refl|by intros ? ? ? H%elem_of_nil|]. intros v c. split; [by intros H%elem_of_nil|]. intros (i & p & w & H & _). by apply elem_of_nil in H.
  - destruct Ge as [I C]. assert (His' : forall i, i ∈ is -> (i < k)%nat) by (intros; apply His; by right). specialize (IH His').
    pose proof (po_N _ _ _ OKps) as HN. pose proof (co_N _ _ _ _ C) as EN.
    destruct (lookup_lt_is_Some_2 (of_angle (eT en) ps) i) as [p Ep]. { rewrite (po_uniform _ _ _ OKps) by lia. apply His. left. }
    destruct (co_act _ _ _ _ C _ _ _ Ht Ep) as (a & Ea & Aok). destruct (angle_nth_in _ _ _ _ Ep) as [Pin Pst].
    pose proof (po_end _ _ _ OKps p Pin) as HE. pose proof (po_cost _ _ _ OKps p Pin) as HC.
    simpl. rewrite Ea. simpl. pose proof Aok as (A1 & A2 & A3 & A4 & A5 & A6 & A7).
    rewrite A2, A3, A4, A5. rewrite normtheta_ok by lia. simpl. rewrite EN.
    destruct (lValid_spec e I (eX en + pX p) (eY en + pY p)) as (b & Eb & Hb). rewrite Eb. simpl. destruct b; simpl.
    2: { destruct (IH e (mkGood _ _ _ _ I C)) as (l & e' & E & G' & X & Hc & Hl). exists l, e'. split_and!; try done.
      { intros j q w [-> |Hj]%elem_of_cons Eq H2; [|eauto]. rewrite Ep in Eq. injection Eq as <-. destruct H2 as (_ & _ & F1 & _ & F). rewrite F1 in F. destruct Hb as [_ Hb]. discriminate (Hb F). }
      intros v c. rewrite Hl. split.
      - intros (j & q & w & Hj & H). exists j, q, w. split; [by right|done].
      - intros (j & q & w & [-> |Hj]%elem_of_cons & Eq & H1 & H2 & H3); [|exists j, q, w; done]. rewrite Ep in Eq. injection Eq as <-.
        destruct H2 as (_ & _ & F1 & _ & F). rewrite F1 in F. destruct Hb as [_ Hb]. discriminate (Hb F). }
    pose proof (Z.mod_pos_bound (pEnd p) N ltac:(lia)) as HB.
    destruct (free_in e (eX en + pX p) (eY en + pY p) I (proj1 Hb eq_refl)) as [Bx By].
    destruct (lState_spec e (eX en + pX p) (eY en + pY p) (pEnd p mod N) I) as (id & e1 & en1 & E1 & I1 & X1 & T1 & P1).
    { apply inrange_iff. rewrite EN. lia. }
    rewrite E1. simpl. assert (G1 : good e1) by (exact (good_ext _ _ _ e e1 (mkGood _ _ _ e I C) I1 X1)). destruct (IH e1 G1) as (l & e' & E & G' & X' & Hc & Hl).
    rewrite E. simpl. eexists _, e'. split_and!; [done|done|by eapply ext_trans| |].
    { intros j q w [-> |Hj]%elem_of_cons Eq Hq; [|eapply Hc; [done|done|by apply (leads_ext e e1)]]. rewrite Ep in Eq. injection Eq as <-.
      exists id. eapply at_ext; [done|]. exists en1. split; [done|]. rewrite P1. destruct Hq as (_ & _ & B1 & B2 & _). destruct w; simpl in *. rewrite B1, B2. done. }
    assert (AT : at_pose e' id (eX en + pX p, eY en + pY p, pEnd p mod N)). { eapply at_ext; [done|]. exists en1. done. }
    assert (ED : leads e p (pose_of en) (eX en + pX p, eY en + pY p, pEnd p mod N)).
    { split_and!; try done. by apply Hb. }
    replace (toi32 (pCost p)) with (pCost p) by (unfold toi32; rewrite Z.mod_small; lia).
    intros v c. rewrite elem_of_cons, Hl. split.
    + intros [[= -> ->]|(j & q & w & Hj & Eq & Aw & Hw & Ec)].
      * exists i, p, (eX en + pX p, eY en + pY p, pEnd p mod N). split_and!; try done. left.
      * exists j, q, w. split_and!; [by right|done|done| |done]. by apply (leads_ext e e1).
    + intros (j & q & w & [-> |Hj]%elem_of_cons & Eq & Aw & Hw & Ec).
      * left. rewrite Ep in Eq. injection Eq as <-. pose proof (leads_fun _ _ _ _ _ ED Hw) as <-. rewrite (at_inj e' v id _ (g_inv _ _ _ _ G') Aw AT). congruence.
      * right. exists j, q, w. split_and!; try done. by apply (leads_ext e e1).
Qed.
Lemma lLazySuccs_spec e id u b : good e -> at_pose e id u -> id <> lGoal e ->
  exists l e', lLazySuccs e id b = Ok (l, b ++ replicate (length l) false, e') /\ good e' /\ ext e e' /\
    (forall p w, leads e p u w -> exists v, at_pose e' v w) /\
    forall v c, (v, c) ∈ l <-> exists p w, at_pose e' v w /\ leads e p u w /\ c = pCost p.
Proof.
  intros Ge (en & E & P) Hg. pose proof Ge as [I C]. unfold lLazySuccs. destruct (Nat.eqb_spec id (lGoal e)); [done|]. unfold lCoord. rewrite E. simpl.
  rewrite (co_k _ _ _ _ C). pose proof (li_range _ I _ _ E) as R. rewrite inrange_iff, (co_N _ _ _ _ C) in R. subst u. simpl.
  destruct (lazy_loop_spec en (seq 0 k)) with (e := e) as (l & e' & El & G' & X & Hc & Hl); [lia| |done|].
  { intros i. rewrite elem_of_seq. lia. }
  rewrite El. simpl. exists l, e'. split_and!; try done.
  { by rewrite map_false. }
  { intros p w Hp. assert (Ep : p ∈ of_angle (eT en) ps). { apply of_angle_in. destruct Hp as (? & ? & _). done. }
    apply elem_of_list_lookup in Ep as [i Ep]. eapply (Hc i p); [|done|done]. apply elem_of_seq. apply lookup_lt_Some in Ep. rewrite (po_uniform _ _ _ OKps) in Ep; lia. }
  intros v c. rewrite Hl. split.
  - intros (i & p & w & Hi & Ep & H1 & H2). exists p, w. done.
  - intros (p & w & H1 & H2 & H3). assert (Ep : p ∈ of_angle (eT en) ps). { apply of_angle_in. destruct H2 as (? & ? & _). done. }
    apply elem_of_list_lookup in Ep as [i Ep]. exists i, p, w. split_and!; try tauto.
    apply elem_of_seq. apply lookup_lt_Some in Ep. rewrite (po_uniform _ _ _ OKps) in Ep; lia.
Qed.
Lemma leadsb_ext e e' p u v : ext e e' -> leadsb e' p u v <-> leadsb e p u v.
Proof. intros X. unfold leadsb. by rewrite (x_C _ _ X), (x_grid _ _ X). Qed.
Lemma leadsb_fun e p u u' v : leadsb e p u v -> leadsb e p u' v -> u = u'.
Proof.
  intros (_ & S & A & _) (_ & S' & A' & _). rewrite A in A'. unfold shift in A'. destruct u as [[? ?] ?], u' as [[? ?] ?]; simpl in *. injection A' as ? ?. f_equal; [f_equal|]; [lia|lia|congruence].
Qed.
Lemma edge_leadsb e p u v c : edge e p u v c -> leadsb e p u v.
Proof. intros H. pose proof (edge_start_free _ _ _ _ _ _ _ H). destruct H as (? & ? & ? & ? & _). done. Qed.
Lemma lazyp_loop_spec en qs : (forall q, q ∈ qs -> exists p, of_angle (Z.of_nat q.1) ps !! q.2 = Some p /\ pEnd p mod N = eT en) ->
  forall e, good e -> 0 <= eX en < cW (lC e) -> 0 <= eY en < cH (lC e) ->
  exists l e', lazyp_loop e en qs = Ok (l, e') /\ good e' /\ ext e e' /\
    (forall q p w, q ∈ qs -> of_angle (Z.of_nat q.1) ps !! q.2 = Some p -> leadsb e p w (pose_of en) -> exists v, at_pose e' v w) /\
    forall v c, (v, c) ∈ l <-> exists q p w, q ∈ qs /\ of_angle (Z.of_nat q.1) ps !! q.2 = Some p /\ at_pose e' v w /\ leadsb e p w (pose_of en) /\ c = pCost p.
Proof.
  induction qs as [|q qs IH]; intros Hqs e Ge Bx By.
  - exists [], e. simpl. split_and!; try done; [apply ext_refl|by intros ? ? ? H%elem_of_nil|]. intros v c. split; [by intros H%elem_of_nil|]. intros (i & p & w & H & _). by apply elem_of_nil in H.
  - destruct Ge as [I C]. assert (Hqs' : forall q, q ∈ qs -> exists p, of_angle (Z.of_nat q.1) ps !! q.2 = Some p /\ pEnd p mod N = eT en) by (intros; apply Hqs; by right). specialize (IH Hqs').
    pose proof (po_N _ _ _ OKps) as HN. pose proof (co_N _ _ _ _ C) as EN.
    destruct (Hqs q) as (p & Ep & Tp); [left|].
    destruct (angle_nth_in _ _ _ _ Ep) as [Pin Pst]. pose proof (po_start _ _ _ OKps p Pin) as HS.
    destruct (co_act _ _ _ _ C (Z.of_nat q.1) _ _ ltac:(lia) Ep) as (a & Ea & Aok).
    pose proof (po_cost _ _ _ OKps p Pin) as HC.
    simpl. rewrite Ea. simpl. pose proof Aok as (A1 & A2 & A3 & A4 & A5 & A6 & A7). rewrite A1, A2, A3, A5.
    destruct (lValid_spec e I (eX en - pX p) (eY en - pY p)) as (b & Eb & Hb). rewrite Eb. simpl.
    assert (EU : forall u, leadsb e p u (pose_of en) -> u = (eX en - pX p, eY en - pY p, pStart p)).
    { intros u (_ & S' & A & _). destruct u as [[ux uy] ut]; simpl in *. unfold shift in A. simpl in A. injection A as -> ->. subst ut. f_equal. f_equal; lia. }
    destruct b; simpl.
    2: { destruct (IH e (mkGood _ _ _ _ I C) Bx By) as (l & e' & E & G' & X & Hc & Hl). exists l, e'. split_and!; try done.
      { intros j q' w [-> |Hj]%elem_of_cons Eq H2; [|eauto]. rewrite Ep in Eq. injection Eq as <-. pose proof (EU _ H2) as ->. destruct H2 as (_ & _ & _ & _ & F). destruct Hb as [_ Hb]. discriminate (Hb F). }
      intros v c. rewrite Hl. split.
      - intros (j & p' & w & Hj & H). exists j, p', w. split; [by right|done].
      - intros (j & p' & w & [-> |Hj]%elem_of_cons & Eq & H1 & H2 & H3); [|exists j, p', w; done]. rewrite Ep in Eq. injection Eq as <-.
        pose proof (EU _ H2) as ->. destruct H2 as (_ & _ & _ & _ & F). destruct Hb as [_ Hb]. discriminate (Hb F). }
    destruct (free_in e (eX en - pX p) (eY en - pY p) I (proj1 Hb eq_refl)) as [Cx Cy].
    destruct (lState_spec e (eX en - pX p) (eY en - pY p) (pStart p) I) as (id & e1 & en1 & E1 & I1 & X1 & T1 & P1).
    { apply inrange_iff. rewrite EN. lia. }
    rewrite E1. simpl. assert (G1 : good e1) by (exact (good_ext _ _ _ e e1 (mkGood _ _ _ e I C) I1 X1)). destruct (IH e1 G1) as (l & e' & E & G' & X' & Hc & Hl).
    { by rewrite (x_C _ _ X1). } { by rewrite (x_C _ _ X1). }
    rewrite E. simpl. eexists _, e'. split_and!; [done|done|by eapply ext_trans| |].
    { intros j q' w [-> |Hj]%elem_of_cons Eq Hq; [|eapply Hc; [done|done|by apply (leadsb_ext e e1)]]. rewrite Ep in Eq. injection Eq as <-.
      exists id. eapply at_ext; [done|]. exists en1. split; [done|]. rewrite P1. by rewrite (EU _ Hq). }
    assert (AT : at_pose e' id (eX en - pX p, eY en - pY p, pStart p)). { eapply at_ext; [done|]. by exists en1. }
    assert (ED : leadsb e p (eX en - pX p, eY en - pY p, pStart p) (pose_of en)).
    { unfold leadsb, shift, pose_of. simpl. split_and!; try done; [f_equal; lia|]. by apply Hb. }
    replace (toi32 (pCost p)) with (pCost p) by (unfold toi32; rewrite Z.mod_small; lia).
    intros v c. rewrite elem_of_cons, Hl. split.
    + intros [[= -> ->]|(j & p' & w & Hj & Eq & Aw & Hw & Ec)].
      * exists q, p, (eX en - pX p, eY en - pY p, pStart p). split_and!; try done. left.
      * exists j, p', w. split_and!; [by right|done|done| |done]. by apply (leadsb_ext e e1).
    + intros (j & p' & w & [-> |Hj]%elem_of_cons & Eq & Aw & Hw & Ec).
      * left. rewrite Ep in Eq. injection Eq as <-. pose proof (leadsb_fun _ _ _ _ _ ED Hw) as <-. rewrite (at_inj e' v id _ (g_inv _ _ _ _ G') Aw AT). congruence.
      * right. exists j, p', w. split_and!; try done. by apply (leadsb_ext e e1).
Qed.
Lemma lLazyPreds_spec e id v b : good e -> at_pose e id v ->
  exists l e', lLazyPreds e id b = Ok (l, b ++ replicate (length l) false, e') /\ good e' /\ ext e e' /\
    (forall p w, leadsb e p w v -> exists u, at_pose e' u w) /\
    forall u c, (u, c) ∈ l <-> exists p w, at_pose e' u w /\ leadsb e p w v /\ c = pCost p.
Proof.
  intros Ge A. pose proof (at_range _ _ _ _ _ _ Ge A) as (Rx & Ry & Rt). destruct A as (en & E & P). pose proof Ge as [I C]. unfold lLazyPreds, lCoord. rewrite E. simpl. subst v. simpl in *.
  destruct (co_pred _ _ _ _ C (eT en) Rt) as (qs & Eq & ND & Hq). rewrite Eq. simpl.
  destruct (lazyp_loop_spec en qs) with (e := e) as (l & e' & El & G' & X & Hc & Hl); try done.
  { intros [u i] Hu. simpl. apply Hq in Hu. done. }
  rewrite El. simpl. exists l, e'. split_and!; try done.
  { by rewrite map_false. }
  { intros p w Hp. pose proof Hp as (Pin & Ps & L1 & L2 & L3). assert (Ep : p ∈ of_angle (pStart p) ps) by (by apply of_angle_in).
    apply elem_of_list_lookup in Ep as [i Ep]. pose proof (po_start _ _ _ OKps p Pin). apply (Hc (Z.to_nat (pStart p), i) p w); simpl; rewrite ?Z2Nat.id by lia; try done.
    apply Hq. exists p. rewrite Z2Nat.id by lia. done. }
  intros u c. rewrite Hl. split.
  - intros (i & p & w & Hi & Ep & H1 & H2). exists p, w. done.
  - intros (p & w & H1 & H2 & H3). destruct H2 as (Pin & Ps & L1 & L2 & L3). assert (Ep : p ∈ of_angle (pStart p) ps) by (by apply of_angle_in).
    apply elem_of_list_lookup in Ep as [i Ep]. pose proof (po_start _ _ _ OKps p Pin). exists (Z.to_nat (pStart p), i), p, w. simpl. rewrite Z2Nat.id by lia. split_and!; try done.
    apply Hq. exists p. rewrite Z2Nat.id by lia. done.
Qed.

(** *** GetTrueCost *)
Definition tc_result (e : lat) (p : prim) (u v : pose) (r : lres Z) : Prop := (exists c, edge e p u v c /\ r = Ok c) \/ ((forall c, ~ edge e p u v c) /\ r = Ok (-1)).
Lemma truecost_loop_spec e en child v is : good e -> at_pose e child v -> 0 <= eT en < N -> (forall i, i ∈ is -> (i < k)%nat) ->
  (truecost_loop e en child is = Exn () /\ forall i p, i ∈ is -> of_angle (eT en) ps !! i = Some p -> ~ leads e p (pose_of en) v) \/
  (exists i p, i ∈ is /\ of_angle (eT en) ps !! i = Some p /\ leads e p (pose_of en) v /\ tc_result e p (pose_of en) v (truecost_loop e en child is)).
Proof.
  intros [I C] Av Ht. induction is as [|i is IH]; intros His.
  - left. split; [done|]. intros ? ? H. by apply elem_of_nil in H.
  - assert (His' : forall i, i ∈ is -> (i < k)%nat) by (intros; apply His; by right). specialize (IH His').
    pose proof (po_N _ _ _ OKps) as HN. pose proof (co_N _ _ _ _ C) as EN.
    destruct (lookup_lt_is_Some_2 (of_angle (eT en) ps) i) as [p Ep]. { rewrite (po_uniform _ _ _ OKps) by lia. apply His. left. }
    destruct (co_act _ _ _ _ C _ _ _ Ht Ep) as (a & Ea & Aok). destruct (angle_nth_in _ _ _ _ Ep) as [Pin Pst].
    pose proof (po_end _ _ _ OKps p Pin) as HE. pose proof (po_cost _ _ _ OKps p Pin) as HC.
    simpl. rewrite Ea. simpl. pose proof Aok as (A1 & A2 & A3 & A4 & A5 & A6 & A7).
    rewrite A2, A3, A4. rewrite normtheta_ok by lia. simpl. rewrite EN.
    destruct (lValid_spec e I (eX en + pX p) (eY en + pY p)) as (b & Eb & Hb). rewrite Eb. simpl.
    assert (SKIP : ~ leads e p (pose_of en) v -> 
      (truecost_loop e en child is = Exn () /\ forall j p, j ∈ i :: is -> of_angle (eT en) ps !! j = Some p -> ~ leads e p (pose_of en) v) \/
      (exists j p, j ∈ i :: is /\ of_angle (eT en) ps !! j = Some p /\ leads e p (pose_of en) v /\ tc_result e p (pose_of en) v (truecost_loop e en child is))).
    { intros Nl. destruct IH as [[E H]|(j & q & Hj & Eq & H)].
      - left. split; [done|]. intros j q [-> |Hj]%elem_of_cons Eq; [|eauto]. rewrite Ep in Eq. injection Eq as <-. done.
      - right. exists j, q. split; [by right|done]. }
    destruct b; simpl.
    2: { apply SKIP. intros (_ & _ & F1 & _ & F). rewrite F1 in F. destruct Hb as [_ Hb]. discriminate (Hb F). }
    destruct (lGet_spec e (eX en + pX p) (eY en + pY p) (pEnd p mod N) I) as (r & Er & Hr). rewrite Er. simpl.
    destruct r as [id|].
    2: { apply SKIP. intros (_ & _ & F1 & F2 & _). destruct Av as (en' & E' & P'). assert (None = Some child); [|done].
      apply Hr. exists en'. split; [done|]. rewrite P'. destruct v; simpl in *. rewrite F1, F2. done. }
    destruct (Nat.eqb_spec id child) as [-> |Hne]; simpl.
    2: { apply SKIP. intros (_ & _ & F1 & F2 & _). destruct Av as (en' & E' & P'). apply Hne. assert (Some id = Some child); [|congruence].
      apply Hr. exists en'. split; [done|]. rewrite P'. destruct v; simpl in *. rewrite F1, F2. done. }
    assert (EV : v = (eX en + pX p, eY en + pY p, pEnd p mod N)).
    { destruct (proj1 (Hr child) eq_refl) as (en' & E' & P'). eapply at_fun; [done|]. by exists en'. }
    destruct (lCost_spec e I (eX en) (eY en) a p Aok HC) as (c0 & Ec & Hc). rewrite Ec. simpl.
    right. exists i, p. split_and!; [left|done| |].
    { subst v. split_and!; try done. by apply Hb. }
    destruct (c0 >=? INFINITECOST) eqn:Q.
    + right. split; [|done]. intros c (_ & _ & _ & _ & X & m & Gm & -> & Lt). destruct Hc as [(X' & m' & Gm' & ->)|[nX _]]; [|done].
      pose proof (greatest_fun _ _ _ _ _ Gm Gm') as ->. lia.
    + left. exists c0. split; [|done]. destruct Hc as [(X & m & Gm & Em)|[_ ->]]; [|unfold INFINITECOST in Q; lia].
      subst v. split_and!; try done. exists m. split_and!; [done|done|lia].
Qed.
Lemma lTrueCost_spec e i j u v : good e -> at_pose e i u -> at_pose e j v ->
  (lTrueCost e i j = Exn () /\ forall p, ~ leads e p u v) \/ (exists p, leads e p u v /\ tc_result e p u v (lTrueCost e i j)).
Proof.
  intros Ge Au Av. pose proof (at_range _ _ _ _ _ _ Ge Au) as (_ & _ & Rt). destruct Au as (en & E & P). pose proof Av as (en' & E' & P').
  unfold lTrueCost, lCoord. rewrite E, E'. simpl. rewrite (co_k _ _ _ _ (g_cfg _ _ _ _ Ge)). subst u. simpl in Rt.
  destruct (truecost_loop_spec e en j v (seq 0 k) Ge Av Rt) as [[-> H]|(n & p & Hn & Ep & L & H)].
  { intros n. rewrite elem_of_seq. lia. }
  - left. split; [done|]. intros p L. assert (Ep : p ∈ of_angle (eT en) ps). { apply of_angle_in. destruct L as (? & ? & _). done. }
    apply elem_of_list_lookup in Ep as [n Ep]. apply (H n p); try done. rewrite elem_of_seq. apply lookup_lt_Some in Ep. rewrite (po_uniform _ _ _ OKps) in Ep; lia.
  - right. exists p. done.
Qed.

(** *** GetActionsFromStateIDPath *)
Lemma best_action_spec l t bc best :
  (best_action l t bc best = best /\ forall c a, (t, c, a) ∈ l -> bc < c) \/
  (exists c a, best_action l t bc best = Some a /\ (t, c, a) ∈ l /\ c <= bc /\ forall c' a', (t, c', a') ∈ l -> c <= c').
Proof.
  revert bc best. induction l as [|[[v c] a] l IH]; intros bc best; simpl.
  - left. split; [done|]. intros ? ? H. by apply elem_of_nil in H.
  - destruct (Nat.eqb_spec v t) as [-> |Hv]; simpl.
    + destruct (Z.leb_spec c bc).
      * right. destruct (IH c (Some a)) as [[E H']|(c' & a' & E & Hin & Hle & H')].
        -- exists c, a. split_and!; [done|left|done|]. intros c' a' [[= -> ->]|Hin]%elem_of_cons; [lia|]. apply H' in Hin. lia.
        -- exists c', a'. split_and!; [done|by right|lia|]. intros c2 a2 [[= -> ->]|Hin2]%elem_of_cons; [lia|eauto].
      * destruct (IH bc best) as [[E H']|(c' & a' & E & Hin & Hle & H')].
        -- left. split; [done|]. intros c' a' [[= -> ->]|Hin]%elem_of_cons; [lia|eauto].
        -- right. exists c', a'. split_and!; [done|by right|lia|]. intros c2 a2 [[= -> ->]|Hin2]%elem_of_cons; [lia|eauto].
    + destruct (IH bc best) as [[E H']|(c' & a' & E & Hin & Hle & H')].
      * left. split; [done|]. intros c' a' [[= -> -> ->]|Hin]%elem_of_cons; [done|eauto].
      * right. exists c', a'. split_and!; [done|by right|lia|]. intros c2 a2 [[= -> -> ->]|Hin2]%elem_of_cons; [done|eauto].
Qed.
End run.
