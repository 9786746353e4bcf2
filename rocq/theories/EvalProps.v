(** C72-C73: EvaluatePolicy. *)
From Verif Require Import Base MdpModel MdpSpec EvalModel EvalSpec EvalProofs EvalProofs2 EvalProofs3 EvalProofs4 EvalProofs5.
From Coq Require Import Lqa.
Local Open Scope Z_scope.

Lemma Vf_zero arr x : (Vf arr (replicate (length arr) 0%Q) x == 0)%Q.
Proof.
  unfold Vf. destruct (ev_find arr 0 x) as [j|]; [|lra].
  destruct (replicate (length arr) 0%Q !! j) eqn:E; simpl; [|lra]. apply lookup_replicate in E as [-> _]. lra.
Qed.
Lemma lp_inv_init arr start goal cyc K : wf_policy 0 arr ->
  (exists f, K f /\ forall x, (0 <= f x)%Q) ->
  lp_inv arr goal K (mkEV (replicate (length arr) 0%Q) ((fun s => if es_id s =? start then 1%Q else 0%Q) <$> arr)
          (inject_Z INFINITECOST) true true 0%Q 0 cyc).
Proof.
  intros Hwf (f&Hf&H0). split; simpl.
  - by apply sub_inv_init.
  - by rewrite fmap_length.
  - done.
  - exists f. split; [done|]. intros x. rewrite Vf_zero. apply H0.
  - intros H. exfalso. unfold EV_MINDELTA, INFINITECOST in H. change (1000000000 # 1 <= 1 # 10)%Q in H. lra.
Qed.
Lemma start_at arr start : NoDup (es_id <$> arr) -> start ∈ es_id <$> arr ->
  exists k s0, arr !! k = Some s0 /\ es_id s0 = start /\ ev_startind arr 0 start None = Some k.
Proof.
  intros Hnd (s&->&Hs)%elem_of_list_fmap. apply elem_of_list_lookup in Hs as [k Hk].
  exists k, s. split_and!; auto. by apply startind_at.
Qed.

(** C72: for a full policy with step costs at least 1, the evaluation never throws, and if it returns then
    the reported value is at most the expected cost of following the policy from the start, and that
    expected cost (of any number of steps) is at most the reported value divided by 0.9. *)
Theorem C72_policy_value_accuracy : forall arr start goal cyc fuel,
  wf_policy 1 arr -> full_policy arr goal -> start ∈ es_id <$> arr ->
  match EvaluatePolicy fuel arr start goal cyc with
  | Ok r => er_full r = true /\
            (exists n, (er_val r <= policy_cost arr goal n start)%Q) /\
            (forall n, (policy_cost arr goal n start <= er_val r / (9 # 10))%Q)
  | OOF => True
  | Exn _ => False
  | UB => False
  end.
Proof.
  intros arr start goal cyc fuel Hwf1 Hfull Hst. pose proof (wf_policy_weaken 1 arr ltac:(lia) Hwf1) as Hwf.
  destruct (start_at arr start) as (k&s0&Hk&Hs0&Hi); [by destruct Hwf|done|].
  pose proof (ev_loop_ok arr start goal Hwf Hfull (Kcost arr goal) (Kcost_step arr goal Hwf) k s0 Hk Hs0 fuel _
    (lp_inv_init arr start goal cyc (Kcost arr goal) Hwf
       ltac:(exists (policy_cost arr goal 0); split; [by exists 0%nat|intros x; simpl; lra]))) as H.
  unfold EvaluatePolicy. rewrite Hi. destruct (ev_loop fuel _ _ _ _ _) as [r|e| |]; [|done..].
  destruct H as (vals&Hsub&(f&(n&Hn)&Hb)&Hres&Hv&Hf). split; [done|]. split.
  - exists n. rewrite Hv, <- Hn. apply Hb.
  - intros m. rewrite Hv. pose proof (residual_bound arr goal vals Hwf1 Hsub Hres m start) as Hm.
    apply Qle_shift_div_l; lra.
Qed.
Print Assumptions C72_policy_value_accuracy.

(** C72, costs that may be zero: no exception, and the value is still never above the expected cost. *)
Theorem C72_policy_value_lower_bound : forall arr start goal cyc fuel,
  wf_policy 0 arr -> full_policy arr goal -> start ∈ es_id <$> arr ->
  match EvaluatePolicy fuel arr start goal cyc with
  | Ok r => er_full r = true /\ (0 <= er_val r)%Q /\ (exists n, (er_val r <= policy_cost arr goal n start)%Q)
  | OOF => True
  | Exn _ => False
  | UB => False
  end.
Proof.
  intros arr start goal cyc fuel Hwf Hfull Hst.
  destruct (start_at arr start) as (k&s0&Hk&Hs0&Hi); [by destruct Hwf|done|].
  pose proof (ev_loop_ok arr start goal Hwf Hfull (Kcost arr goal) (Kcost_step arr goal Hwf) k s0 Hk Hs0 fuel _
    (lp_inv_init arr start goal cyc (Kcost arr goal) Hwf
       ltac:(exists (policy_cost arr goal 0); split; [by exists 0%nat|intros x; simpl; lra]))) as H.
  unfold EvaluatePolicy. rewrite Hi. destruct (ev_loop fuel _ _ _ _ _) as [r|e| |]; [|done..].
  destruct H as (vals&Hsub&(f&(n&Hn)&Hb)&Hres&Hv&Hf). split; [done|]. split.
  - rewrite Hv. apply (si_nonneg _ _ _ Hsub).
  - exists n. rewrite Hv, <- Hn. apply Hb.
Qed.
Print Assumptions C72_policy_value_lower_bound.

(** C72, partial policies: the evaluation ends in its first sweep with bFullPolicy = false; the value is the
    constant UNKNOWN_COST, or a lower bound of the expected cost until an unexplored state is met. *)
Theorem C72_partial_policy : forall arr start goal cyc fuel,
  wf_policy 0 arr -> ~ full_policy arr goal -> start ∈ es_id <$> arr ->
  exists r, EvaluatePolicy (S fuel) arr start goal cyc = Ok r /\ er_full r = false /\
    (er_val r = 1000000%Q \/ exists n, (0 <= er_val r <= policy_cost arr goal n start)%Q).
Proof.
  intros arr start goal cyc fuel Hwf Hnf Hst.
  destruct (start_at arr start) as (k&s0&Hk&Hs0&Hi); [by destruct Hwf|done|].
  assert (Hex : exists s, s ∈ arr /\ es_id s <> goal /\ es_acts s = []).
  { destruct (decide (Exists (fun s => es_id s <> goal /\ es_acts s = []) arr)) as [He|He].
    - apply Exists_exists in He as (s&?&?&?). eauto.
    - exfalso. apply Hnf. intros s Hs Hne E. apply He, Exists_exists. eauto. }
  unfold EvaluatePolicy. rewrite Hi. cbn [ev_loop]. change (qltb EV_MINDELTA (ev_delta _)) with true. cbv iota.
  pose proof (lp_inv_init arr start goal cyc (Kcost arr goal) Hwf
       ltac:(exists (policy_cost arr goal 0); split; [by exists 0%nat|intros x; simpl; lra])) as [L1 L2 L3 L4 _].
  simpl in L1, L2, L3, L4.
  edestruct (ev_sweep_partial arr start goal Hwf (Kcost arr goal) (Kcost_step arr goal Hwf)
    (replicate (length arr) 0%Q) arr 0) as (st'&j&s&v&->&Hf&Hj&Hne&Ha&Ev&Hsub&Hb); [done| |done|].
  { split; cbn [ev_vals ev_pcs ev_delta ev_full]; try done; try (intros; lra). all: intros; lia. }
  cbn [obind fst snd]. unfold ev_result. rewrite Ev.
  pose proof (si_len _ _ _ Hsub) as Hl. pose proof (lookup_lt_Some _ _ _ Hk) as Hkl.
  destruct (decide (j = k)) as [-> | Hjk].
  - rewrite list_lookup_insert by lia. eexists; split; [done|]. split; [done|]. by left.
  - rewrite list_lookup_insert_ne by done. destruct (lookup_lt_is_Some_2 v k) as [q Hq]; [lia|]. rewrite Hq.
    eexists; split; [done|]. split; [done|]. right. simpl. destruct Hb as (f&(n&Hn)&Hb). exists n.
    assert (E : Vf arr v (es_id s0) = q) by (destruct Hwf; by eapply Vf_at).
    specialize (Hb start). rewrite Hn in Hb. pose proof (si_nonneg _ _ _ Hsub start) as H0.
    rewrite <- Hs0 in Hb, H0 |- *. rewrite E in Hb, H0. by split.
Qed.
Print Assumptions C72_partial_policy.

(** C72: nMerges and bCycles of a full policy are exact (bCycles is never reset to false). *)
Theorem C72_merges_and_cycles : forall c arr start goal cyc fuel r,
  wf_policy c arr -> full_policy arr goal -> EvaluatePolicy fuel arr start goal cyc = Ok r ->
  er_merges r = total_merges arr goal arr /\
  (er_cycles r = true <->
     cyc = true \/ exists x y, id_step arr x y /\ rtc (id_step arr) y x).
Proof.
  intros c arr start goal cyc fuel r Hwf Hfull H. destruct (EvaluatePolicy_mc c arr start goal cyc fuel r Hwf Hfull H) as [H1 H2].
  split; [done|]. rewrite H2. split; (intros [?|H']; [by left|right]).
  - destruct H' as (s&Hs&y&Hy&Hr). eauto.
  - destruct H' as (x&y&Hxy&Hr). destruct (id_step_in c arr x y Hwf Hxy) as (_&_&j&t&_&_&Hj&<-).
    exists t. split; [by eapply elem_of_list_lookup_2|]. by exists x.
Qed.
Print Assumptions C72_merges_and_cycles.

(** C73: the evaluation of a full policy with step costs at least 1 ends if and only if every state of the
    policy can reach the goal; otherwise the loop "until delta small" never ends. *)
Theorem C73_evaluation_ends_iff_proper : forall arr start goal cyc,
  wf_policy 1 arr -> full_policy arr goal -> start ∈ es_id <$> arr ->
  (exists fuel r, EvaluatePolicy fuel arr start goal cyc = Ok r) <->
  (forall s, s ∈ arr -> rtc (id_step arr) (es_id s) goal).
Proof.
  intros arr start goal cyc Hwf1 Hfull Hst. pose proof (wf_policy_weaken 1 arr ltac:(lia) Hwf1) as Hwf.
  destruct (start_at arr start) as (k&s0&Hk&Hs0&Hi); [by destruct Hwf|done|]. split.
  - intros (fuel&r&H). unfold EvaluatePolicy in H. rewrite Hi in H.
    pose proof (ev_loop_ok arr start goal Hwf Hfull (Kcost arr goal) (Kcost_step arr goal Hwf) k s0 Hk Hs0 fuel _
      (lp_inv_init arr start goal cyc (Kcost arr goal) Hwf
         ltac:(exists (policy_cost arr goal 0); split; [by exists 0%nat|intros x; simpl; lra]))) as H2.
    rewrite H in H2. destruct H2 as (vals&Hsub&_&Hres&_). by eapply residual_reaches.
  - intros Hreach. destruct (bound_exists arr goal Hwf1 Hfull Hreach) as (U&HU0&HU).
    set (K := fun f => f = U).
    assert (HK : forall f, K f -> exists f', K f' /\ (forall x, (f x <= f' x)%Q) /\
       forall s a, s ∈ arr -> es_id s <> goal -> es_acts s = [a] -> (Tf (ea_outs a) f <= f' (es_id s))%Q).
    { intros f ->. exists U. split_and!; [done|intros; lra|done]. }
    pose proof (lp_inv_init arr start goal cyc K Hwf ltac:(by exists U)) as Hin.
    destruct (Qarchimedean (Qsum ((fun s => U (es_id s)) <$> arr) * 10)) as [p Hp].
    assert (Hz : forall l : list est, (Qsum (replicate (length l) 0%Q) == 0)%Q).
    { induction l as [|? l IH]; simpl; [lra|]. rewrite IH. lra. }
    pose proof (ev_loop_term arr start goal Hwf Hfull K HK k s0 Hk Hs0 U (Pos.to_nat p)
      ltac:(intros f -> x; lra) _ Hin) as Ht.
    pose proof (ev_loop_ok arr start goal Hwf Hfull K HK k s0 Hk Hs0 (Pos.to_nat p + 2) _ Hin) as Ho.
    exists (Pos.to_nat p + 2)%nat. unfold EvaluatePolicy. rewrite Hi.
    destruct (ev_loop (Pos.to_nat p + 2) _ _ _ _ _) as [r|e| |]; [by eexists|done|done|].
    exfalso. apply Ht; [|done]. cbn [ev_vals]. rewrite Hz, positive_nat_Z.
    change (Z.pos p # 1) with (inject_Z (Z.pos p)) in Hp. unfold EV_MINDELTA. lra.
Qed.
Print Assumptions C73_evaluation_ends_iff_proper.

(** A stochastic policy: 1 -> 2 or back to 1; 2 -> goal 9 or 1. *)
Definition demo_pol : list est :=
  [mkES 1 [mkEA 0 [(2, 3, 1 # 2); (1, 1, 1 # 2)]]; mkES 2 [mkEA 0 [(9, 5, 3 # 4); (1, 2, 1 # 4)]]; mkES 9 []].
Lemma outs_ok_check c outs : forallb (fun o => qltb 0 (o.2) && (c <=? o.1.2)) outs = true ->
  (expect outs (fun _ _ => 1) == 1)%Q -> outs_ok c outs.
Proof.
  intros H E. split; [|done]. intros o Ho. rewrite forallb_forall in H. specialize (H o).
  rewrite <- elem_of_list_In in H. specialize (H Ho). apply andb_true_iff in H as [H1 H2].
  split; [by apply qltb_true|]. by apply Z.leb_le.
Qed.
Lemma demo_pol_wf : wf_policy 1 demo_pol.
Proof.
  split.
  - simpl. repeat constructor; rewrite ?elem_of_cons, ?elem_of_nil; naive_solver.
  - intros s Hs. unfold demo_pol in Hs. rewrite !elem_of_cons, elem_of_nil in Hs.
    destruct Hs as [-> | [-> | [-> | []]]]; [right|right|by left];
      (eexists; split; [done|]; split; [by apply outs_ok_check|]);
      simpl; intros o Ho; rewrite !elem_of_cons, elem_of_nil in Ho; rewrite !elem_of_cons;
      destruct Ho as [-> | [-> | []]]; simpl; tauto.
Qed.
Lemma demo_pol_full : full_policy demo_pol 9.
Proof.
  intros s Hs. unfold demo_pol in Hs. rewrite !elem_of_cons, elem_of_nil in Hs.
  destruct Hs as [-> | [-> | [-> | []]]]; simpl; congruence.
Qed.
(** It is evaluated: about 11.0 (the exact expected cost is 11). *)
Example evaluate_demo : match EvaluatePolicy 20 demo_pol 1 9 false with
  | Ok r => (105 # 10 <= er_val r)%Q /\ (er_val r <= 11)%Q /\ er_full r = true /\ er_cycles r = true /\ er_merges r = 1
  | _ => False end.
Proof. vm_compute. repeat split; congruence. Qed.
(** The goal is unreachable from a closed loop 1 <-> 2: the evaluation does not end, whatever the fuel. *)
Definition loop_pol : list est :=
  [mkES 1 [mkEA 0 [(2, 1, 1%Q)]]; mkES 2 [mkEA 0 [(1, 1, 1%Q)]]].
Lemma loop_pol_wf : wf_policy 1 loop_pol.
Proof.
  split.
  - simpl. repeat constructor; rewrite ?elem_of_cons, ?elem_of_nil; naive_solver.
  - intros s Hs. unfold loop_pol in Hs. rewrite !elem_of_cons, elem_of_nil in Hs.
    destruct Hs as [-> | [-> | []]]; right;
      (eexists; split; [done|]; split; [by apply outs_ok_check|]);
      simpl; intros o Ho; rewrite !elem_of_cons, elem_of_nil in Ho; rewrite !elem_of_cons;
      destruct Ho as [-> | []]; simpl; tauto.
Qed.
Theorem C73_evaluation_always_ends_refuted : forall fuel, EvaluatePolicy fuel loop_pol 1 9 false = OOF.
Proof.
  intros fuel. assert (Hfull : full_policy loop_pol 9).
  { intros s Hs. unfold loop_pol in Hs. rewrite !elem_of_cons, elem_of_nil in Hs. destruct Hs as [-> | [-> | []]]; done. }
  assert (Hst : 1 ∈ es_id <$> loop_pol) by (simpl; set_solver).
  pose proof (C72_policy_value_accuracy loop_pol 1 9 false fuel loop_pol_wf Hfull Hst) as H.
  pose proof (proj1 (C73_evaluation_ends_iff_proper loop_pol 1 9 false loop_pol_wf Hfull Hst)) as H2.
  destruct (EvaluatePolicy fuel loop_pol 1 9 false) as [r|e| |] eqn:E; [|done|done|done].
  exfalso. specialize (H2 ltac:(eauto) (mkES 1 [mkEA 0 [(2, 1, 1%Q)]]) ltac:(unfold loop_pol; set_solver)). simpl in H2.
  assert (Hinv : forall y, rtc (id_step loop_pol) 1 y -> y = 1 \/ y = 2).
  { intros y Hy. refine (rtc_ind_r (fun y => y = 1 \/ y = 2) 1 _ _ y Hy); [by left|].
    intros x z _ (a&o&(s&Hs&_&Ha)&Ho&<-) _. unfold loop_pol in Hs. rewrite !elem_of_cons, elem_of_nil in Hs.
    destruct Hs as [-> | [-> | []]]; simpl in Ha; injection Ha as <-; simpl in Ho;
      rewrite elem_of_cons, elem_of_nil in Ho; destruct Ho as [-> | []]; simpl; tauto. }
  destruct (Hinv 9 H2); done.
Qed.
Print Assumptions C73_evaluation_always_ends_refuted.
