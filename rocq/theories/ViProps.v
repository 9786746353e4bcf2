(** C74-C76: the value-iteration planner. *)
From Verif Require Import Base MdpModel MdpSpec EvalModel EvalSpec EvalProofs EvalProofs2 EvalProofs3 EvalProofs4 EvalProps ViModel ViSpec ViProofs ViProofs2 ViProofs3 ViProofs4 ViProofs5 ViProofs6.
From Coq Require Import Lqa.
Local Open Scope Z_scope.

(** C74: whatever calls came before and whenever the clock ends this one, v(start) as printed by replan is
    nonnegative and at most the expected cost of every strategy, for an admissible heuristic. *)
Theorem C74_value_is_a_lower_bound : forall env goal st fuel efuel start clock st' r,
  env_ok 0 env -> admissible env goal -> vi_history env goal st ->
  vi_replan fuel efuel env start goal clock st = Ok (st', r) ->
  vr_ret r = 1 /\ (0 <= vr_vstart r)%Q /\ below_optimum env goal start (vr_vstart r).
Proof.
  intros env goal st fuel efuel start clock st' r Henv Hadm Hh H. pose proof (history_inv env goal Henv Hadm st Hh) as Hst.
  pose proof (replan_inv env goal Henv fuel efuel start clock st st' r Hst H) as [Hst' ->]. split_and!.
  - unfold vi_replan in H. apply obind_ok in H as (?&_&H). apply obind_ok in H as (?&_&H). apply obind_ok in H as (?&_&[= _ <-]). done.
  - apply (li_nonneg _ _ _ Hst').
  - apply (li_below _ _ _ Hst').
Qed.
Print Assumptions C74_value_is_a_lower_bound.

Lemma first_marks env d b : marks_le env (mkVI ∅ 0 d b).
Proof. intros x. unfold vi_get. simpl. rewrite lookup_empty. simpl. lia. Qed.

(** C75: if the first call of a planner (with the static g_belldelta above its threshold, as at program
    start) is not ended by the clock, then the policy it evaluates is made of actions of the environment, is
    full, reaches the goal from each of its states, and its expected cost is at most 1/0.99 of the expected
    cost of any strategy. *)
Theorem C75_converged_policy_is_near_optimal : forall env goal d b fuel efuel start clock st' r,
  env_ok 1 env -> admissible env goal -> (1 # 100 < d)%Q ->
  vi_replan fuel efuel env start goal clock (mkVI ∅ 0 d b) = Ok (st', r) -> vr_timeout r = false ->
  wf_policy 1 (vr_policy r) /\ full_policy (vr_policy r) goal /\ start ∈ es_id <$> vr_policy r /\
  (forall s a, s ∈ vr_policy r -> es_acts s = [a] -> a ∈ ve_acts env (es_id s)) /\
  er_full (vr_eval r) = true /\
  (forall s, s ∈ vr_policy r -> rtc (id_step (vr_policy r)) (es_id s) goal) /\
  (forall n, (policy_cost (vr_policy r) goal n start <= vr_vstart r / (99 # 100))%Q) /\
  (forall n (s : strategy) eps, (0 < eps)%Q ->
     exists m, (policy_cost (vr_policy r) goal n start <= (strategy_cost env goal s m [] start + eps) / (99 # 100))%Q).
Proof.
  intros env goal d b fuel efuel start clock st' r Henv1 Hadm Hd H Ht.
  pose proof (env_ok_weaken env Henv1) as Henv.
  pose proof (st_inv_empty env goal Hadm 0 d b) as Hst0.
  pose proof (replan_inv env goal Henv fuel efuel start clock _ st' r Hst0 H) as [Hst' Hvs].
  unfold vi_replan in H. apply obind_ok in H as ([st1 t]&H1&H). apply obind_ok in H as ([st2 pol]&H2&H).
  apply obind_ok in H as (e&H3&[= <- <-]). simpl in *. subst t.
  pose proof (iterate_inv env goal Henv fuel start clock _ _ _ ltac:(by apply st_inv_empty) H1) as Hst1.
  destruct (iterate_last env goal Henv Hadm fuel start clock _ _ _ Hst0 (first_marks env d b) (or_introl Hd) H1) as [Hm Hx].
  destruct (Hx eq_refl) as [Hdone Hd1].
  pose proof (print_inv env goal fuel start st1 st2 pol Hst1 H2) as [_ HV].
  pose proof (conv_policy env goal Henv1 Hadm start fuel st1 st2 pol Hst1 Hm Hdone Hd1 H2) as (C1&C2&C3&C4&C5).
  pose proof (value_bound pol goal (Vv env st1) MDP_ERRDELTA C1 (li_nonneg _ _ _ Hst1) ltac:(done) ltac:(unfold MDP_ERRDELTA; lra) C5) as Hvb.
  assert (Hcost : forall n, (policy_cost pol goal n start <= vd_v (vi_get env st2 start) / (99 # 100))%Q).
  { intros n. rewrite HV. specialize (Hvb n start). unfold MDP_ERRDELTA, Vv in Hvb. apply Qle_shift_div_l; lra. }
  split_and!; [done..| | |done|].
  - pose proof (C72_policy_value_accuracy pol start goal false efuel C1 C2 C3) as He. rewrite H3 in He. tauto.
  - apply (value_reaches pol goal (Vv env st1) MDP_ERRDELTA C1 (li_nonneg _ _ _ Hst1) ltac:(unfold MDP_ERRDELTA; lra) C5 C2).
  - intros n s eps He. destruct (li_below _ _ _ Hst' start s eps He) as [m Hm2]. exists m.
    eapply Qle_trans; [apply (Hcost n)|]. unfold Vv in Hm2. unfold Qdiv. apply Qmult_le_compat_r; [done|]. discriminate.
Qed.
Print Assumptions C75_converged_policy_is_near_optimal.

(** The first call of a planner that runs after another planner's converged run (g_belldelta is a static
    that is not reset): no iteration is done, and the "policy" is the unexplored start. *)
Theorem C75_after_another_planner_refuted : forall env goal d b fuel efuel start clock,
  start <> goal -> (d <= 1 # 100)%Q ->
  exists st' r, vi_replan (S (S fuel)) (S efuel) env start goal (true :: clock) (mkVI ∅ 0 d b) = Ok (st', r) /\
    vr_timeout r = false /\ vr_policy r = [mkES start []] /\ er_full (vr_eval r) = false /\ vi_backups st' = b.
Proof.
  intros env goal d b fuel efuel start clock Hne Hd.
  assert (Hq : qltb MDP_ERRDELTA d = false) by (by apply qltb_false).
  set (pol := [mkES start []]).
  destruct (C72_partial_policy pol start goal false efuel) as (e&He&Hf&_).
  - split; [simpl; apply NoDup_singleton|]. intros s ->%elem_of_list_singleton. by left.
  - intros Hfull. by apply (Hfull (mkES start []) ltac:(set_solver) Hne).
  - simpl. set_solver.
  - unfold vi_replan. cbn [vi_iterate vi_delta vi_mdp vi_backups]. rewrite Hq. cbn [obind fst snd].
    unfold vi_print_policy. cbn [vi_policy].
    rewrite (proj2 (Z.eqb_neq start goal) Hne). rewrite vi_put_get, Z.eqb_refl.
    assert (Hb : forall it dl bb, vd_best (vi_get env (mkVI ∅ it dl bb) start) = None) by (intros; unfold vi_get; simpl; by rewrite lookup_empty).
    cbn [vd_best vi_mdp]. rewrite Hb. cbn [obind fst snd app]. fold pol. rewrite He. cbn [obind].
    eexists _, _. split; [done|]. simpl. done.
Qed.
Print Assumptions C75_after_another_planner_refuted.

(** C76: every iteration and the collection of the policy end, after any history: with |D| states reachable
    from the start an iteration makes at most |D| + 1 backups. *)
Theorem C76_iterations_end : forall env goal st start D clock,
  env_ok 0 env -> admissible env goal -> vi_history env goal st -> closed_states env start D ->
  exists st' b, vi_iterate (length D + 2) env start goal clock (mkVI (vi_mdp st) 0 (vi_delta st) (vi_backups st)) = Ok (st', b) /\
    vi_backups st <= vi_backups st' <= vi_backups st + Z.of_nat (length clock * (length D + 1)) /\
    exists p, vi_print_policy (length D + 2) env start goal st' = Ok p.
Proof.
  intros env goal st start D clock Henv Hadm Hh HD. pose proof (history_inv env goal Henv Hadm st Hh) as Hst.
  destruct (iterate_total env goal Henv Hadm start D HD clock (mkVI (vi_mdp st) 0 (vi_delta st) (vi_backups st))) as (st'&b&H1&H2).
  - by apply (st_inv_mdp env goal st).
  - exists st', b. split_and!; [done|apply H2|apply H2|].
    apply (print_total env goal Henv Hadm start D HD). eapply iterate_inv; [done| |done]. by apply (st_inv_mdp env goal st).
Qed.
Print Assumptions C76_iterations_end.

(** C76: given enough time, the first call converges and returns, if the heuristic is also consistent, the
    states reachable from the start are finitely many, and the goal can be reached from each of them. *)
Theorem C76_first_call_converges : forall env goal start D d b,
  env_ok 1 env -> admissible env goal -> consistent env goal -> closed_states env start D ->
  (forall x, x ∈ D -> rtc (env_step env) x goal) -> (1 # 100 < d)%Q ->
  exists N, forall clock, (N < length clock)%nat -> (forall c, c ∈ take (S N) clock -> c = true) ->
  exists efuel st' r, vi_replan (length D + 2) efuel env start goal clock (mkVI ∅ 0 d b) = Ok (st', r) /\ vr_timeout r = false.
Proof.
  intros env goal start D d b Henv1 Hadm Hcons HD Hreach Hd. pose proof (env_ok_weaken env Henv1) as Henv.
  destruct (bound_env env goal Henv1 start D HD Hreach) as (U&A&HU0&HU).
  pose proof (below_bound env goal Henv1 start D HD U A HU0 HU) as Hbd.
  assert (Hacts : forall x, x ∈ D -> x <> goal -> ve_acts env x <> []).
  { intros x Hx Hne E. destruct (HU x Hx Hne) as (a&_&Ha&_). rewrite E in Ha. by apply elem_of_nil in Ha. }
  set (C := Qsum ((fun x => U x + (1 # 100))%Q <$> D)).
  assert (HC : forall st, st_inv env goal st -> (Phi env goal D st <= C)%Q).
  { intros st Hst. apply Qsum_le. intros x Hx. unfold phi. pose proof (Hbd x _ Hx (li_below _ _ _ Hst x)).
    destruct (x =? goal); [lra|]. destruct (vd_best _); lra. }
  set (st0 := mkVI ∅ 0 d b).
  assert (Hst0 : st_inv env goal st0) by (by apply st_inv_empty).
  assert (HV0 : forall x, Vv env st0 x = inject_Z (ve_h env x)).
  { intros x. unfold Vv, vi_get, st0. simpl. by rewrite lookup_empty. }
  assert (Hm0 : mono env goal st0).
  { intros x a Hne Ha. rewrite HV0. eapply Qle_trans; [by apply Hcons|]. unfold Tf. apply Qle_lteq. right.
    induction (ea_outs a) as [|o outs IH]; simpl; [lra|]. rewrite IH, HV0. lra. }
  destruct (Qarchimedean ((C - Phi env goal D st0) * 100)) as [p Hp]. exists (Pos.to_nat p). intros clock Hl Ht.
  destruct (iterate_conv env goal Henv Hadm start D HD Hacts C HC (Pos.to_nat p) clock st0) as (st1&H1); [done|done| |done|done|].
  { rewrite positive_nat_Z. change (Z.pos p # 1) with (inject_Z (Z.pos p)) in Hp. unfold MDP_ERRDELTA. lra. }
  pose proof (iterate_inv env goal Henv _ start clock _ _ _ Hst0 H1) as Hst1.
  destruct (print_total env goal Henv Hadm start D HD st1 Hst1) as ([st2 pol]&H2).
  destruct (iterate_last env goal Henv Hadm _ start clock _ _ _ Hst0 (first_marks env d b) (or_introl Hd) H1) as [Hm Hx].
  destruct (Hx eq_refl) as [Hdone Hd1].
  pose proof (conv_policy env goal Henv1 Hadm start _ st1 st2 pol Hst1 Hm Hdone Hd1 H2) as (C1&C2&C3&C4&C5).
  pose proof (value_reaches pol goal (Vv env st1) MDP_ERRDELTA C1 (li_nonneg _ _ _ Hst1) ltac:(unfold MDP_ERRDELTA; lra) C5 C2) as Hr.
  apply (C73_evaluation_ends_iff_proper pol start goal false C1 C2 C3) in Hr as (efuel&e&He).
  exists efuel. unfold vi_replan. change (mkVI (vi_mdp st0) 0 (vi_delta st0) (vi_backups st0)) with st0.
  rewrite H1. cbn [obind fst snd]. rewrite H2. cbn [obind fst snd]. rewrite He. cbn [obind]. eexists _, _. split; [done|]. done.
Qed.
Print Assumptions C76_first_call_converges.

(** * Concrete environments *)
Lemma below_zero env goal x : env_ok 0 env -> below_optimum env goal x 0%Q.
Proof. intros Henv s eps He. exists 0%nat. simpl. lra. Qed.
Lemma admissible_check env goal : env_ok 0 env -> (forall x, 0 <= ve_h env x) -> ve_h env goal = 0 ->
  (forall x a, x <> goal -> a ∈ ve_acts env x -> (inject_Z (ve_h env x) <= Tf (ea_outs a) (fun _ => 0))%Q) -> admissible env goal.
Proof.
  intros Henv H0 Hg Hh x. split; [done|]. destruct (Z.eq_dec x goal) as [-> | Hne].
  - rewrite Hg. by apply below_zero.
  - apply (below_backup env goal Henv (fun _ => 0%Q)); [intros y; by apply below_zero|done|]. intros a Ha. by apply Hh.
Qed.

Definition det (y c : Z) : eact := mkEA 0 [(y, c, 1%Q)].
Lemma det_ok k y c : k <= c -> outs_ok k (ea_outs (det y c)).
Proof. intros H. split; [|done]. intros o ->%elem_of_list_singleton. split; [done|]. simpl. done. Qed.

(** Start 1: to 2 or to 3 at cost 1; 2 to the goal 0 at cost 100; 3 to 4 at cost 1; 4 to the goal at cost 1000. *)
Definition stale_env : vienv := mkVE
  (fun x => if x =? 1 then [det 2 1; det 3 1] else if x =? 2 then [det 0 100] else if x =? 3 then [det 4 1]
            else if x =? 4 then [det 0 1000] else [])
  (fun x => if x =? 2 then 5 else if x =? 4 then 4 else 0).
Lemma stale_env_ok : env_ok 1 stale_env.
Proof.
  intros x a Ha. simpl in Ha. repeat (destruct (x =? _); [rewrite ?elem_of_cons, elem_of_nil in Ha;
    destruct_or?; try done; subst a; by apply det_ok|]). by apply elem_of_nil in Ha.
Qed.
Lemma stale_env_adm : admissible stale_env 0.
Proof.
  apply admissible_check; [by apply env_ok_weaken, stale_env_ok| |done|].
  - intros x. simpl. repeat destruct (x =? _); lia.
  - intros x a Hne Ha. simpl in *. destruct (Z.eqb_spec x 1) as [-> | _].
    { rewrite ?elem_of_cons, elem_of_nil in Ha. destruct_or?; try done; subst a; discriminate. }
    destruct (Z.eqb_spec x 2) as [-> | _]; [apply elem_of_list_singleton in Ha as ->; discriminate|].
    destruct (Z.eqb_spec x 3) as [-> | _]; [apply elem_of_list_singleton in Ha as ->; discriminate|].
    destruct (Z.eqb_spec x 4) as [-> | _]; [apply elem_of_list_singleton in Ha as ->; discriminate|].
    by apply elem_of_nil in Ha.
Qed.
(** The first call, given time, finds the best policy (cost 101). *)
Example vi_demo : match vi_replan 10 10 stale_env 1 0 [true; true; true; true; true; true; true] vi_init with
  | Ok (_, r) => vr_timeout r = false /\ (vr_vstart r == 101)%Q /\ (er_val (vr_eval r) == 101)%Q /\ es_id <$> vr_policy r = [1; 2; 0]
  | _ => False end.
Proof. vm_compute. repeat split; congruence. Qed.
(** C75 for later calls: after a first call that the clock ended, a second call stops as converged although
    it looked at one successor only with stale values (replan sets iteration to 0, and the marks of the
    first call are taken for marks of this one): cost 1002 instead of 101. *)
Theorem C75_later_calls_refuted : exists env goal start clock1 clock2 st1 r1 st2 r2 (s : strategy),
  env_ok 1 env /\ admissible env goal /\
  vi_replan 10 10 env start goal clock1 vi_init = Ok (st1, r1) /\
  vi_replan 10 10 env start goal clock2 st1 = Ok (st2, r2) /\ vr_timeout r2 = false /\
  (policy_cost (vr_policy r2) goal 3 start == 1002)%Q /\ forall n, (strategy_cost env goal s n [] start <= 101)%Q.
Proof.
  exists stale_env, 0, 1, [true], [true; true; true; true].
  destruct (vi_replan 10 10 stale_env 1 0 [true] vi_init) as [[st1 r1]|e| |] eqn:E1; [|vm_compute in E1; discriminate..].
  vm_compute in E1. injection E1 as E1a E1b.
  destruct (vi_replan 10 10 stale_env 1 0 [true; true; true; true] st1) as [[st2 r2]|e| |] eqn:E2;
    [|rewrite <- E1a in E2; vm_compute in E2; discriminate..].
  exists st1, r1, st2, r2, (fun _ => 0%nat). rewrite <- E1a in E2. vm_compute in E2. injection E2 as E2a E2b.
  split_and!; [apply stale_env_ok|apply stale_env_adm|by rewrite <- E1a, <- E1b|rewrite <- E1a, <- E2a, <- E2b; vm_compute; done| | |].
  - by rewrite <- E2b.
  - rewrite <- E2b. vm_compute. done.
  - intros [|[|[|n]]]; [vm_compute; discriminate..|]. simpl. destruct n; simpl; vm_compute; discriminate.
Qed.
Print Assumptions C75_later_calls_refuted.

(** C76: when the clock ends the call, the policy may have a loop that avoids the goal, and then replan does
    not return at all: 1 to 2 at cost 1; 2 back to 1 at cost 1 or to the goal 9 at cost 1000. *)
Definition loop_env : vienv := mkVE
  (fun x => if x =? 1 then [det 2 1] else if x =? 2 then [det 1 1; det 9 1000] else []) (fun _ => 0).
Theorem C76_returns_in_time_refuted : forall efuel, vi_replan 10 efuel loop_env 1 9 [true] vi_init = OOF.
Proof.
  intros efuel. unfold vi_replan.
  destruct (vi_iterate 10 loop_env 1 9 [true] _) as [[st1 b]|e| |] eqn:E1; [|vm_compute in E1; discriminate..].
  vm_compute in E1. injection E1 as E1 _. cbn [obind fst snd].
  destruct (vi_print_policy 10 loop_env 1 9 st1) as [[st2 pol]|e| |] eqn:E2; [|rewrite <- E1 in E2; vm_compute in E2; discriminate..].
  rewrite <- E1 in E2. vm_compute in E2. injection E2 as _ E2. cbn [obind fst snd].
  pose proof (C73_evaluation_always_ends_refuted efuel) as H. unfold loop_pol in H. rewrite <- E2, H. done.
Qed.
Print Assumptions C76_returns_in_time_refuted.

(** The hypotheses of C76_first_call_converges are met by stale_env, ... *)
Example stale_env_converges : consistent stale_env 0 /\ closed_states stale_env 1 [1; 2; 3; 4; 0] /\
  forall x, x ∈ [1; 2; 3; 4; 0] -> rtc (env_step stale_env) x 0.
Proof.
  assert (H2 : env_step stale_env 2 0). { exists (det 0 100), (0, 100, 1%Q). split_and!; simpl; set_solver. }
  assert (H4 : env_step stale_env 4 0). { exists (det 0 1000), (0, 1000, 1%Q). split_and!; simpl; set_solver. }
  assert (H3 : env_step stale_env 3 4). { exists (det 4 1), (4, 1, 1%Q). split_and!; simpl; set_solver. }
  assert (H1 : env_step stale_env 1 2). { exists (det 2 1), (2, 1, 1%Q). split_and!; simpl; set_solver. }
  split_and!; [|split| ].
  - intros x a Hne Ha. simpl in Ha. destruct (Z.eqb_spec x 1) as [-> | _].
    { rewrite ?elem_of_cons, elem_of_nil in Ha. destruct_or?; try done; subst a; discriminate. }
    destruct (Z.eqb_spec x 2) as [-> | _]; [apply elem_of_list_singleton in Ha as ->; discriminate|].
    destruct (Z.eqb_spec x 3) as [-> | _]; [apply elem_of_list_singleton in Ha as ->; discriminate|].
    destruct (Z.eqb_spec x 4) as [-> | _]; [apply elem_of_list_singleton in Ha as ->; discriminate|].
    by apply elem_of_nil in Ha.
  - set_solver.
  - intros x a o _ Ha Ho. simpl in Ha. repeat (destruct (x =? _); [rewrite ?elem_of_cons, elem_of_nil in Ha;
      destruct_or?; try done; subst a; apply elem_of_list_singleton in Ho as ->; simpl; set_solver|]). by apply elem_of_nil in Ha.
  - intros x Hx. rewrite !elem_of_cons, elem_of_nil in Hx. destruct Hx as [-> | [-> | [-> | [-> | [-> | []]]]]].
    + eapply rtc_l; [exact H1|]. by apply rtc_once.
    + by apply rtc_once.
    + eapply rtc_l; [exact H3|]. by apply rtc_once.
    + by apply rtc_once.
    + done.
Qed.
(** ... and a stochastic environment: from 1 one can risk a slip (to 2 or stay) or walk round at cost 9. *)
Definition slip_env : vienv := mkVE
  (fun x => if x =? 1 then [det 9 20; mkEA 1 [(2, 3, 1 # 2); (1, 1, 1 # 2)]]
            else if x =? 2 then [mkEA 0 [(9, 5, 3 # 4); (1, 2, 1 # 4)]] else []) (fun _ => 0).
Example slip_demo : match vi_replan 10 30 slip_env 1 9 (replicate 20 true) vi_init with
  | Ok (_, r) => vr_timeout r = false /\ (1098 # 100 <= vr_vstart r)%Q /\ (vr_vstart r <= 11)%Q /\
                 (105 # 10 <= er_val (vr_eval r))%Q /\ es_id <$> vr_policy r = [1; 2; 9]
  | _ => False end.
Proof. vm_compute. repeat split; congruence. Qed.
