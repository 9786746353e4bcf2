(** The value-iteration planner: the loop, the printed policy, and the cost of the policy. *)
From Verif Require Import Base MdpModel MdpSpec EvalModel EvalSpec EvalProofs EvalProofs2 EvalProofs3 EvalProofs4 ViModel ViSpec ViProofs ViProofs2 ViProofs3.
From Coq Require Import Lqa.
Local Open Scope Z_scope.

Section iter4.
Context (env : vienv) (goal : Z) (Henv : env_ok 0 env) (Hadm : admissible env goal).
Notation st_inv := (st_inv env goal).
Notation vi_step := (vi_step env goal).
Notation mk := (mk env).
Notation next := (next env goal).
Notation fw := (fw env goal).

Definition marks_le (st : vist) : Prop := forall x, vd_iter (vi_get env st x) <= vi_iter st.
Lemma next_it st id wl : st_inv st -> vi_iter (next st id wl).1 = vi_iter st.
Proof.
  intros Hst. pose proof (step_push env goal Henv st id wl Hst) as Hp. fold (next st id wl) in Hp.
  rewrite (ps_it _ _ _ _ _ _ Hp). by apply step_frame.
Qed.
Lemma next_inv st id wl : st_inv st -> st_inv (next st id wl).1.
Proof.
  intros Hst. pose proof (step_push env goal Henv st id wl Hst) as Hp. fold (next st id wl) in Hp.
  eapply push_inv; [exact Hp|]. by apply step_inv.
Qed.
Lemma next_marks st id wl : st_inv st -> marks_le st -> marks_le (next st id wl).1.
Proof.
  intros Hst Hm x. rewrite next_it by done. pose proof (step_push env goal Henv st id wl Hst) as Hp. fold (next st id wl) in Hp.
  destruct (step_frame env goal st id Hst) as (F1&_&F3&_).
  destruct (ps_mark _ _ _ _ _ _ Hp x) as [E|E]; rewrite E, ?F1, ?F3; [apply Hm|lia].
Qed.
Lemma forward_marks fuel : forall st wl st', st_inv st -> marks_le st -> vi_forward fuel env goal st wl = Ok st' -> marks_le st'.
Proof.
  induction fuel as [|fuel IH]; intros st wl st' Hst Hm; simpl; [done|].
  destruct wl as [|id wl]; [by intros [= <-]|]. fold (vi_step st id). fold (next st id wl).
  apply IH; [by apply next_inv|by apply next_marks].
Qed.
Definition bump (st : vist) : vist := mkVI (vi_mdp st) (vi_iter st + 1) 0%Q (vi_backups st).
Lemma bump_unmarked st : marks_le st -> forall x, ~ mk (bump st) x.
Proof. intros Hm x. unfold ViProofs3.mk. rewrite (get_mdp env st (bump st) x eq_refl). simpl. specialize (Hm x). lia. Qed.

(** A planner state in which the last iteration is complete. *)
Definition done_iter (start : Z) (st : vist) : Prop := exists b0 B, fw start b0 st [] B.
Lemma iterate_last fuel start clock : forall st st' b, st_inv st -> marks_le st ->
  (MDP_ERRDELTA < vi_delta st)%Q \/ done_iter start st ->
  vi_iterate fuel env start goal clock st = Ok (st', b) ->
  marks_le st' /\ (b = false -> done_iter start st' /\ (vi_delta st' <= MDP_ERRDELTA)%Q).
Proof.
  induction clock as [|[] clock IH]; intros st st' b Hst Hm Hpre; simpl; [by intros [= <- <-]| |by intros [= <- <-]].
  destruct (qltb MDP_ERRDELTA (vi_delta st)) eqn:El.
  - intros H. apply obind_ok in H as (st1&H1&H). fold (bump st) in H1.
    assert (Hb : st_inv (bump st)) by (by apply (st_inv_mdp env goal st)).
    assert (Hmb : marks_le (bump st)).
    { intros x. rewrite (get_mdp env st (bump st) x eq_refl). simpl. specialize (Hm x). lia. }
    eapply IH; [| | |exact H].
    + by eapply forward_inv.
    + by eapply forward_marks.
    + right. eapply forward_fw_start in H1 as (B&H1&_); [by exists (vi_backups (bump st)), B|done..|simpl; lra|].
      by apply bump_unmarked.
  - intros [= <- <-]. apply qltb_false in El. destruct Hpre as [Hlt|Hd]; [lra|]. done.
Qed.

(** * PrintPolicy *)
Definition pol_entry (st : vist) (x : Z) : est :=
  mkES x (if x =? goal then [] else match vd_best (vi_get env st x) with None => [] | Some a => [a] end).
Lemma pol_entry_data st st' x : (forall x, vd_best (vi_get env st' x) = vd_best (vi_get env st x)) -> pol_entry st' x = pol_entry st x.
Proof. intros H. unfold pol_entry. by rewrite H. Qed.
Record pw (S : Z -> Prop) (st : vist) (wl P : list Z) (pol : list est) : Prop := {
  pw_mark : forall x, mk st x <-> x ∈ wl \/ x ∈ P;
  pw_nd : NoDup (wl ++ P);
  pw_cl : forall x a o, x ∈ P -> x <> goal -> vd_best (vi_get env st x) = Some a -> o ∈ ea_outs a -> mk st (o.1.1);
  pw_pol : pol = pol_entry st <$> P;
  pw_S : forall x, x ∈ wl ++ P -> S x;
}.
Lemma policy_pw (S : Z -> Prop) st0 fuel :
  (forall x a o, S x -> x <> goal -> vd_best (vi_get env st0 x) = Some a -> o ∈ ea_outs a -> S (o.1.1)) ->
  forall st wl P pol st' pol', (forall x, vd_best (vi_get env st x) = vd_best (vi_get env st0 x)) ->
  pw S st wl P pol -> vi_policy fuel env goal st wl pol = Ok (st', pol') ->
  exists P', pw S st' [] P' pol' /\ (forall x, vd_best (vi_get env st' x) = vd_best (vi_get env st0 x)) /\ (forall x, x ∈ wl ++ P -> x ∈ P').
Proof.
  intros HS. induction fuel as [|fuel IH]; intros st wl P pol st' pol' Hb Hp; simpl; [done|].
  destruct wl as [|id wl]; [intros [= <- <-]; exists P; split_and!; [done..|]; set_solver|].
  destruct Hp as [Pm Pn Pc Pp PS]. simpl in Pn. apply NoDup_cons in Pn as [Pn1 Pn2].
  assert (Hnd : NoDup (wl ++ P ++ [id])).
  { rewrite app_assoc. apply NoDup_app. split_and!; [done| |apply NoDup_singleton].
    intros x Hx ->%elem_of_list_singleton. done. }
  assert (Hskip : (id = goal \/ vd_best (vi_get env st id) = None) -> pw S st wl (P ++ [id]) (pol ++ [mkES id []])).
  { intros Hc. split.
    - intros x. rewrite Pm, elem_of_app, elem_of_cons, elem_of_list_singleton. tauto.
    - done.
    - intros x a o [Hx| ->%elem_of_list_singleton]%elem_of_app Hne Ha Ho; [by eapply Pc|]. destruct Hc; congruence.
    - rewrite fmap_app, <- Pp. simpl. f_equal. unfold pol_entry. f_equal. f_equal.
      destruct (Z.eqb_spec id goal); [done|]. by destruct Hc as [?| ->].
    - intros x Hx. apply PS. set_solver. }
  assert (Hin : forall P' : list Z, (forall x, x ∈ wl ++ P ++ [id] -> x ∈ P') -> forall x, x ∈ id :: wl ++ P -> x ∈ P').
  { intros P' HP' x Hx. apply HP'. set_solver. }
  destruct (Z.eqb_spec id goal) as [Eg|Hne].
  { intros H. apply (IH _ _ (P ++ [id])) in H as (P'&H1&H2&H3); [|done|apply Hskip; by left]. exists P'. split_and!; auto. }
  destruct (vd_best (vi_get env st id)) as [a|] eqn:Ea.
  2:{ intros H. apply (IH _ _ (P ++ [id])) in H as (P'&H1&H2&H3); [|done|apply Hskip; by right]. exists P'. split_and!; auto. }
  pose proof (vi_push_spec env (ea_outs a) st wl) as Hps. destruct (vi_push env st (ea_outs a) wl) as [st1 wl1] eqn:E1. simpl in Hps.
  destruct (ps_wl _ _ _ _ _ _ Hps) as (new&Wl&_&_&Y). destruct (mark_push env st (ea_outs a) wl st1 wl1 new Hps Wl) as (M1&M2&M3).
  assert (Hb1 : forall x, vd_best (vi_get env st1 x) = vd_best (vi_get env st x)) by (intros x; apply (ps_data _ _ _ _ _ _ Hps)).
  simpl. intros H. apply (IH _ _ (P ++ [id])) in H as (P'&H1&H2&H3); [exists P'; split_and!; [done..|]|intros x; by rewrite Hb1|].
  - apply Hin. intros x Hx. apply H3. rewrite Wl. set_solver.
  - split.
    + intros x. rewrite M1, Pm, Wl, !elem_of_app, elem_of_cons, elem_of_list_singleton. tauto.
    + rewrite Wl, <- app_assoc. apply NoDup_app. split_and!; [done| |done].
      intros x Hx Hin2. apply (M3 x Hx). apply Pm. clear -Hin2. set_solver.
    + intros x b o Hx Hxg Hbx Ho. rewrite Hb1 in Hbx. apply elem_of_app in Hx as [Hx|Hx%elem_of_list_singleton].
      * apply M1. left. by eapply Pc.
      * subst x. rewrite Ea in Hbx. injection Hbx as <-. unfold ViProofs3.mk. rewrite (ps_it _ _ _ _ _ _ Hps).
        by apply (ps_out _ _ _ _ _ _ Hps).
    + rewrite fmap_app, Pp. simpl. f_equal.
      * apply list_fmap_ext. intros _ y _. unfold pol_entry. by rewrite Hb1.
      * unfold pol_entry. rewrite Hb1, Ea. by rewrite (proj2 (Z.eqb_neq id goal) Hne).
    + intros x Hx. rewrite Wl in Hx. assert (Hx2 : x ∈ new \/ x ∈ id :: wl ++ P) by set_solver.
      destruct Hx2 as [Hx2|Hx2]; [|by apply PS].
      destruct (Y x Hx2) as (o&Ho&<-). apply (HS id a o); [apply PS; set_solver|done|by rewrite <- Hb|done].
Qed.

Lemma print_policy_spec (S : Z -> Prop) fuel start st st' pol : marks_le st -> S start ->
  (forall x a o, S x -> x <> goal -> vd_best (vi_get env st x) = Some a -> o ∈ ea_outs a -> S (o.1.1)) ->
  vi_print_policy fuel env start goal st = Ok (st', pol) ->
  exists P, pol = pol_entry st <$> P /\ NoDup P /\ start ∈ P /\ (forall x, x ∈ P -> S x) /\
    forall x a o, x ∈ P -> x <> goal -> vd_best (vi_get env st x) = Some a -> o ∈ ea_outs a -> o.1.1 ∈ P.
Proof.
  intros Hm Hs HS H. unfold vi_print_policy in H. cbv zeta in H. set (st1 := mkVI (vi_mdp st) (vi_iter st + 1) (vi_delta st) (vi_backups st)) in H.
  set (d := mkVD _ _ _ _) in H.
  assert (G : forall x, vi_get env (vi_put st1 start d) x = if x =? start then d else vi_get env st x).
  { intros x. rewrite vi_put_get. by destruct (x =? start). }
  assert (Gb : forall x, vd_best (vi_get env (vi_put st1 start d) x) = vd_best (vi_get env st x)).
  { intros x. rewrite G. by destruct (Z.eqb_spec x start) as [-> | _]. }
  apply (policy_pw S st _ HS _ _ [] []) in H as (P&[Pm Pn Pc Pp PS]&Hb&Hin); [|done|].
  - exists P. split_and!.
    + rewrite Pp. apply list_fmap_ext. intros _ y _. unfold pol_entry. by rewrite Hb.
    + done.
    + apply Hin. set_solver.
    + intros x Hx. by apply PS.
    + intros x a o Hx Hne Ha Ho. specialize (Pc x a o Hx Hne ltac:(by rewrite Hb) Ho). apply Pm in Pc as [Pc|?]; [|done].
      by apply elem_of_nil in Pc.
  - split.
    + intros x. unfold ViProofs3.mk. rewrite G. change (vi_iter (vi_put st1 start d)) with (vi_iter st + 1).
      destruct (Z.eqb_spec x start) as [-> | Hx]; simpl.
      * split; [intros _; left; set_solver|done].
      * specialize (Hm x). split; [lia|]. intros [Hx2%elem_of_list_singleton|Hx2%elem_of_nil]; done.
    + rewrite app_nil_r. apply NoDup_singleton.
    + intros x a o Hx. by apply elem_of_nil in Hx.
    + done.
    + intros x Hx. rewrite app_nil_r in Hx. apply elem_of_list_singleton in Hx as ->. done.
Qed.
End iter4.

(** * The cost of a policy whose values have a small residual *)
Section val.
Context (pol : list est) (goal : Z) (V : Z -> Q) (d : Q).
Context (Hwf : wf_policy 1 pol) (HV : forall x, (0 <= V x)%Q) (Hd0 : (0 <= d)%Q) (Hd : (d < 1)%Q).
Context (Hres : forall s a, s ∈ pol -> es_id s <> goal -> es_acts s = [a] -> (Tf (ea_outs a) V <= V (es_id s) + d)%Q).
Lemma value_bound n x : ((1 - d) * policy_cost pol goal n x <= V x)%Q.
Proof.
  pose proof (wf_policy_weaken 1 pol ltac:(lia) Hwf) as Hwf0.
  revert x. induction n as [|n IH]; intros x; [simpl; pose proof (HV x); lra|].
  destruct (policy_cost_cases pol goal n x Hwf0) as [[-> _]|(s&a&Hs&<-&Hne&Ha&_&H)]; [pose proof (HV x); lra|].
  rewrite H. destruct Hwf as [_ Hw]. destruct (Hw s Hs) as [E|(b&E&Hok&_)]; [congruence|].
  rewrite Ha in E. injection E as <-. pose proof (Hres s a Hs Hne Ha) as Hr.
  assert (Hx : (Tf (ea_outs a) (fun y => (1 - d) * policy_cost pol goal n y) <= Tf (ea_outs a) V)%Q).
  { apply (Tf_mono 1); [done|]. apply IH. }
  assert (Hc : ((1 - d) * Tf (ea_outs a) (policy_cost pol goal n) <= Tf (ea_outs a) (fun y => (1 - d) * policy_cost pol goal n y) - d)%Q).
  { destruct Hok as [Hok H1]. assert (G : ((1 - d) * Tf (ea_outs a) (policy_cost pol goal n) <=
      Tf (ea_outs a) (fun y => (1 - d) * policy_cost pol goal n y) - d * expect (ea_outs a) (fun _ _ => 1))%Q).
    { clear H1 Hr Hx Ha H. induction (ea_outs a) as [|o outs IHo]; unfold Tf in *; simpl; [lra|].
      specialize (IHo ltac:(intros; apply Hok; set_solver)). destruct (Hok o ltac:(set_solver)) as [Hp Hz].
      assert (Hz1 : (1 <= inject_Z (o.1.2))%Q) by (change 1%Q with (inject_Z 1); by apply inject_le).
      set (E1 := expect outs (fun c y => inject_Z c + policy_cost pol goal n y)%Q) in *.
      set (E2 := expect outs (fun c y => inject_Z c + (1 - d) * policy_cost pol goal n y)%Q) in *.
      set (E3 := expect outs (fun _ _ => 1%Q)) in *.
      assert (0 <= o.2 * (d * (inject_Z (o.1.2) - 1)))%Q.
      { apply Qmult_le_0_compat; [lra|]. apply Qmult_le_0_compat; lra. }
      lra. }
    rewrite H1 in G. lra. }
  lra.
Qed.
Lemma value_reaches : full_policy pol goal -> forall s, s ∈ pol -> rtc (id_step pol) (es_id s) goal.
Proof.
  intros Hfull. destruct Hwf as [Hnd Hw].
  assert (Hn : forall n s, s ∈ pol -> (V (es_id s) <= inject_Z (Z.of_nat n) * (1 - d))%Q ->
    rtc (id_step pol) (es_id s) goal).
  { assert (Hstep : forall s, s ∈ pol -> es_id s <> goal -> exists t, t ∈ pol /\ id_step pol (es_id s) (es_id t) /\ (V (es_id t) <= V (es_id s) - (1 - d))%Q).
    { intros s Hs Hne. destruct (Hw s Hs) as [E|(a&E&Hok&Hin)]; [by destruct (Hfull s)|].
      pose proof (Hres s a Hs Hne E) as Hr. unfold Tf in Hr.
      destruct (expect_cost 1 (ea_outs a) V Hok) as [Hc Hv]. rewrite Hv in Hr.
      change (inject_Z 1) with 1%Q in Hc.
      destruct (outcome_below 1 (ea_outs a) V (V (es_id s) - (1 - d)) Hok) as (o&Ho&Hlo); [lra|].
      destruct (proj1 (elem_of_list_fmap _ _ _) (Hin o Ho)) as (t&Et&Ht). exists t. split_and!; [done| |by rewrite <- Et].
      exists a, o. split_and!; [by exists s|done..]. }
    induction n as [|n IH]; intros s Hs Hle; (destruct (Z.eq_dec (es_id s) goal) as [-> | Hne]; [done|]);
      destruct (Hstep s Hs Hne) as (t&Ht&Hst&Hlo).
    - change (inject_Z (Z.of_nat 0)) with 0%Q in Hle. pose proof (HV (es_id t)). lra.
    - eapply rtc_l; [exact Hst|]. apply IH; [done|]. rewrite Nat2Z.inj_succ in Hle. unfold Z.succ in Hle.
      rewrite inject_Z_plus in Hle. change (inject_Z 1) with 1%Q in Hle. lra. }
  intros s Hs. destruct (Qarchimedean (V (es_id s) / (1 - d))) as [p Hp]. apply (Hn (Pos.to_nat p) s Hs).
  rewrite positive_nat_Z. change (Z.pos p # 1) with (inject_Z (Z.pos p)) in Hp.
  assert (V (es_id s) == V (es_id s) / (1 - d) * (1 - d))%Q as -> by (field; lra).
  apply Qmult_le_compat_r; lra.
Qed.
End val.
