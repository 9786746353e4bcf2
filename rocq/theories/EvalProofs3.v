(** The whole of EvaluatePolicy: result, accuracy, termination. *)
From Verif Require Import Base MdpModel MdpSpec MdpProofs EvalModel EvalSpec EvalProofs EvalProofs2.
From Coq Require Import Lqa.
Local Open Scope Z_scope.

#[local] Arguments ev_result : simpl never.
#[local] Arguments ev_sweep : simpl never.
(** * Facts about policy_cost *)
Lemma policy_cost_S arr goal n s a : NoDup (es_id <$> arr) -> s ∈ arr -> es_id s <> goal -> es_acts s = [a] ->
  policy_cost arr goal (S n) (es_id s) = Tf (ea_outs a) (policy_cost arr goal n).
Proof.
  intros Hnd Hs Hne Ha. apply elem_of_list_lookup in Hs as [i Hi]. simpl.
  destruct (Z.eqb_spec (es_id s) goal); [done|]. rewrite (list_find_at arr i s Hnd Hi), Ha. done.
Qed.
Lemma policy_cost_goal arr goal n : policy_cost arr goal n goal = 0%Q.
Proof. destruct n; simpl; [done|]. by rewrite Z.eqb_refl. Qed.
Lemma policy_cost_cases arr goal n x : wf_policy 0 arr ->
  policy_cost arr goal (S n) x = 0%Q /\ policy_cost arr goal (S (S n)) x = 0%Q \/
  exists s a, s ∈ arr /\ es_id s = x /\ x <> goal /\ es_acts s = [a] /\ outs_ok 0 (ea_outs a) /\
    forall m, policy_cost arr goal (S m) x = Tf (ea_outs a) (policy_cost arr goal m).
Proof.
  intros [Hnd Hw]. destruct (Z.eq_dec x goal) as [-> | Hne]; [left; by rewrite !policy_cost_goal|].
  destruct (list_find (fun s => es_id s = x) arr) as [[i s]|] eqn:E.
  - pose proof E as E0. apply list_find_Some in E as (Hi&<-&_).
    assert (Hs : s ∈ arr) by (by eapply elem_of_list_lookup_2).
    destruct (Hw s Hs) as [Ea|(a&Ea&Hok&_)].
    + left. simpl. destruct (Z.eqb_spec (es_id s) goal); [done|]. by rewrite E0, Ea.
    + right. exists s, a. split_and!; auto. intros m. by apply policy_cost_S.
  - left. simpl. destruct (Z.eqb_spec x goal); [done|]. by rewrite E.
Qed.
Lemma policy_cost_mono arr goal n x : wf_policy 0 arr ->
  (0 <= policy_cost arr goal n x)%Q /\ (policy_cost arr goal n x <= policy_cost arr goal (S n) x)%Q.
Proof.
  intros Hwf. revert x. induction n as [|n IH]; intros x.
  - simpl (policy_cost arr goal 0 x). destruct (policy_cost_cases arr goal 0 x Hwf) as [[-> _]|(s&a&_&_&_&_&Hok&H)]; [lra|].
    split; [lra|]. rewrite H. apply expect_nonneg; [by eauto using outs_ok_nonneg|]. intros o Ho. simpl.
    assert (inject_Z 0 <= inject_Z (o.1.2))%Q by (apply inject_le; by apply Hok). change (inject_Z 0) with 0%Q in *. lra.
  - destruct (policy_cost_cases arr goal n x Hwf) as [[-> ->]|(s&a&_&_&_&_&Hok&H)]; [lra|].
    rewrite !H. split.
    + apply expect_nonneg; [by eauto using outs_ok_nonneg|]. intros o Ho. destruct (IH (o.1.1)) as [Hn _].
      assert (inject_Z 0 <= inject_Z (o.1.2))%Q by (apply inject_le; by apply Hok). change (inject_Z 0) with 0%Q in *. lra.
    + apply (Tf_mono 0); [done|]. intros y. apply IH.
Qed.

Definition Kcost (arr : list est) (goal : Z) (f : Z -> Q) : Prop := exists n, forall x, f x = policy_cost arr goal n x.
Lemma Kcost_step arr goal : wf_policy 0 arr -> forall f, Kcost arr goal f ->
  exists f', Kcost arr goal f' /\ (forall x, (f x <= f' x)%Q) /\
     forall s a, s ∈ arr -> es_id s <> goal -> es_acts s = [a] -> (Tf (ea_outs a) f <= f' (es_id s))%Q.
Proof.
  intros Hwf f [n Hf]. exists (policy_cost arr goal (S n)). split; [by exists (S n)|]. split.
  - intros x. rewrite Hf. by apply policy_cost_mono.
  - intros s a Hs Hne Ha. rewrite (policy_cost_S arr goal n s a); [|by destruct Hwf|done..].
    destruct Hwf as [_ Hw]. destruct (Hw s Hs) as [E|(b&E&Hok&_)]; [congruence|]. rewrite Ha in E. injection E as <-.
    apply (Tf_mono 0); [done|]. intros x. rewrite Hf. lra.
Qed.

(** * The loop *)
Definition residual (arr : list est) (goal : Z) (vals : list Q) (d : Q) : Prop :=
  forall s a, s ∈ arr -> es_id s <> goal -> es_acts s = [a] ->
    (Tf (ea_outs a) (Vf arr vals) <= Vf arr vals (es_id s) + d)%Q.

Lemma startind_spec arr id k acc :
  match ev_startind arr k id acc with
  | Some i => acc = Some i \/ (k <= i)%nat /\ exists s, arr !! (i - k)%nat = Some s /\ es_id s = id
  | None => acc = None
  end /\ (id ∈ es_id <$> arr -> exists i, ev_startind arr k id acc = Some i /\ (k <= i)%nat).
Proof.
  revert k acc. induction arr as [|s arr IH]; intros k acc; simpl.
  - split; [destruct acc; auto|]. intros H. by apply elem_of_nil in H.
  - destruct (Z.eqb_spec (es_id s) id) as [E|E].
    + destruct (IH (S k) (Some k)) as [H1 H2]. destruct (ev_startind arr (S k) id (Some k)) as [i|]; [|done].
      split.
      * right. destruct H1 as [[= <-]|(Hk&t&Ht&Et)].
        -- split; [lia|]. exists s. by rewrite Nat.sub_diag.
        -- split; [lia|]. exists t. split; [|done]. replace (i - k)%nat with (S (i - S k)) by lia. done.
      * intros _. exists i. split; [done|]. destruct H1 as [[= <-]|(Hk&_)]; lia.
    + destruct (IH (S k) acc) as [H1 H2]. split.
      * destruct (ev_startind arr (S k) id acc) as [i|]; [|done].
        destruct H1 as [->|(Hk&t&Ht&Et)]; [by left|right]. split; [lia|]. exists t. split; [|done].
        replace (i - k)%nat with (S (i - S k)) by lia. done.
      * intros [? | H]%elem_of_cons; [congruence|]. destruct (H2 H) as (i&->&Hk). exists i. split; [done|lia].
Qed.
Lemma startind_at arr i s : NoDup (es_id <$> arr) -> arr !! i = Some s -> ev_startind arr 0 (es_id s) None = Some i.
Proof.
  intros Hnd Hi. destruct (startind_spec arr (es_id s) 0 None) as [H1 H2].
  destruct H2 as (j&Hj&_). { apply elem_of_list_fmap. exists s. split; [done|]. by eapply elem_of_list_lookup_2. }
  rewrite Hj in *. destruct H1 as [?|(_&t&Ht&E)]; [done|]. rewrite Nat.sub_0_r in Ht. f_equal. by eapply ids_unique.
Qed.

Section loop.
Context (arr : list est) (start goal : Z) (Hwf : wf_policy 0 arr) (Hfull : full_policy arr goal).
Context (K : (Z -> Q) -> Prop)
  (Kstep : forall f, K f -> exists f', K f' /\ (forall x, (f x <= f' x)%Q) /\
     forall s a, s ∈ arr -> es_id s <> goal -> es_acts s = [a] -> (Tf (ea_outs a) f <= f' (es_id s))%Q).
Context (k : nat) (s0 : est) (Hk : arr !! k = Some s0) (Hs0 : es_id s0 = start).

Record lp_inv (st : evst) : Prop := {
  lp_sub : sub_inv arr goal (ev_vals st);
  lp_pcs : length (ev_pcs st) = length arr;
  lp_full : ev_full st = true;
  lp_bnd : bnd arr K (ev_vals st);
  lp_res : (ev_delta st <= EV_MINDELTA)%Q -> residual arr goal (ev_vals st) EV_MINDELTA;
}.
Definition zero_delta (st : evst) : evst :=
  mkEV (ev_vals st) (ev_pcs st) 0%Q (ev_full st) (ev_first st) (ev_pcgoal st) (ev_merges st) (ev_cycles st).
Definition not_first (s : evst) : evst :=
  mkEV (ev_vals s) (ev_pcs s) (ev_delta s) (ev_full s) false (ev_pcgoal s) (ev_merges s) (ev_cycles s).

Lemma lp_sweep st : lp_inv st ->
  exists st', ev_sweep arr start goal arr 0 (zero_delta st) = Ok (st', false) /\ lp_inv (not_first st') /\
    (Qsum (ev_vals st) + ev_delta st' <= Qsum (ev_vals st'))%Q.
Proof.
  intros [Hs Hp Hf Hb _].
  destruct (ev_sweep_ok arr start goal Hwf K Kstep (ev_vals st) Hfull arr 0 (zero_delta st)) as (st'&->&[]&_).
  - lia.
  - done.
  - split; simpl; try done; try (intros; lra). all: intros; lia.
  - exists st'. split; [done|]. split; [|done]. split; simpl; try done.
    intros Hd s a Hin Hne Ha. apply elem_of_list_lookup in Hin as [j Hj].
    destruct Hwf as [_ Hw]. destruct (Hw s) as [E|(b&E&Hok&_)]; [by eapply elem_of_list_lookup_2|congruence|].
    rewrite Ha in E. injection E as <-.
    assert (Tf (ea_outs a) (Vf arr (ev_vals st)) <= Vf arr (ev_vals st') (es_id s))%Q.
    { apply (sw_done j); [by eapply lookup_lt_Some|done..]. }
    assert (Tf (ea_outs a) (Vf arr (ev_vals st')) <= Tf (ea_outs a) (Vf arr (ev_vals st)) + ev_delta st')%Q
      by (by apply (Tf_shift 0)).
    lra.
Qed.

Lemma ev_result_ok st : lp_inv st ->
  exists r, ev_result (Some k) st = Ok r /\ er_val r = Vf arr (ev_vals st) start /\ er_full r = true.
Proof.
  intros [[Hl _ _ _] _ Hf _ _]. unfold ev_result.
  destruct (lookup_lt_is_Some_2 (ev_vals st) k) as [v Hv]; [rewrite Hl; by eapply lookup_lt_Some|]. rewrite Hv.
  eexists; split; [done|]. simpl. split; [|done]. rewrite <- Hs0. symmetry. destruct Hwf. by eapply Vf_at.
Qed.

Lemma ev_loop_ok fuel : forall st, lp_inv st ->
  match ev_loop fuel arr start goal (Some k) st with
  | Ok r => exists vals, sub_inv arr goal vals /\ bnd arr K vals /\ residual arr goal vals EV_MINDELTA /\
              er_val r = Vf arr vals start /\ er_full r = true
  | OOF => True
  | _ => False
  end.
Proof.
  induction fuel as [|fuel IH]; intros st Hst; simpl; [done|].
  destruct (qltb EV_MINDELTA (ev_delta st)) eqn:Ed.
  - destruct (lp_sweep st Hst) as (st'&Hsw&Hst'&_). unfold zero_delta in Hsw. rewrite Hsw. simpl. by apply IH.
  - apply qltb_false in Ed. destruct (ev_result_ok st Hst) as (r&->&Hv&Hf). destruct Hst. exists (ev_vals st). split_and!; auto.
Qed.

Lemma ev_loop_term U n : (forall f, K f -> forall x, (f x <= U x)%Q) -> forall st, lp_inv st ->
  (Qsum ((fun s => U (es_id s)) <$> arr) <= Qsum (ev_vals st) + inject_Z (Z.of_nat n) * EV_MINDELTA)%Q ->
  ev_loop (n + 2) arr start goal (Some k) st <> OOF.
Proof.
  intros HU.
  assert (Hsum : forall st, lp_inv st -> (Qsum (ev_vals st) <= Qsum ((fun s => U (es_id s)) <$> arr))%Q).
  { intros st [[Hl _ _ _] _ _ (f&Hf&Hb) _].
    assert (Hp : forall i s v, arr !! i = Some s -> ev_vals st !! i = Some v -> (v <= U (es_id s))%Q).
    { intros i s v Hi Hv. destruct Hwf. rewrite <- (Vf_at arr (ev_vals st) i s v) by done.
      specialize (Hb (es_id s)). specialize (HU f Hf (es_id s)). lra. }
    clear -Hp Hl. revert Hl Hp. generalize (ev_vals st) as vals. generalize arr as l.
    induction l as [|s l IH]; intros [|v vals] Hl Hp; simpl in *; try lia; [lra|].
    specialize (Hp 0%nat s v eq_refl eq_refl) as H0.
    assert (Qsum vals <= Qsum ((fun s => U (es_id s)) <$> l))%Q; [|by apply Qplus_le_compat].
    apply IH; [lia|]. intros i t w Hi Hw. by apply (Hp (S i)). }
  induction n as [|n IH]; intros st Hst Hm; simpl.
  - destruct (qltb EV_MINDELTA (ev_delta st)) eqn:Ed.
    + destruct (lp_sweep st Hst) as (st'&Hsw&Hst'&Hinc). unfold zero_delta in Hsw. rewrite Hsw. simpl.
      pose proof (Hsum _ Hst') as Hb. simpl in Hb. change (inject_Z (Z.of_nat 0)) with 0%Q in Hm.
      assert (qltb EV_MINDELTA (ev_delta st') = false) as ->. { apply qltb_false. unfold EV_MINDELTA. lra. }
      destruct (ev_result_ok _ Hst') as (r&Hr&_). unfold not_first in Hr. by rewrite Hr.
    + destruct (ev_result_ok _ Hst) as (r&->&_). done.
  - destruct (qltb EV_MINDELTA (ev_delta st)) eqn:Ed; [|destruct (ev_result_ok _ Hst) as (r&->&_); done].
    destruct (lp_sweep st Hst) as (st'&Hsw&Hst'&Hinc). unfold zero_delta in Hsw. rewrite Hsw. simpl.
    destruct (qltb EV_MINDELTA (ev_delta st')) eqn:Ed'.
    + apply qltb_true in Ed'. apply (IH _ Hst'). simpl.
      rewrite Nat2Z.inj_succ in Hm. unfold Z.succ in Hm. rewrite inject_Z_plus in Hm. change (inject_Z 1) with 1%Q in Hm.
      lra.
    + replace (n + 2)%nat with (S (n + 1)) by lia. simpl. rewrite Ed'.
      destruct (ev_result_ok _ Hst') as (r&Hr&_). unfold not_first in Hr. by rewrite Hr.
Qed.
End loop.

Lemma Kcost_bnd_init arr goal : bnd arr (Kcost arr goal) (replicate (length arr) 0%Q).
Proof.
  exists (policy_cost arr goal 0). split; [by exists 0%nat|]. intros x. simpl.
  unfold Vf. destruct (ev_find arr 0 x) as [j|]; [|lra].
  destruct (replicate (length arr) 0%Q !! j) eqn:E; simpl; [|lra]. apply lookup_replicate in E as [-> _]. lra.
Qed.

Lemma residual_bound arr goal vals : wf_policy 1 arr -> sub_inv arr goal vals -> residual arr goal vals EV_MINDELTA ->
  forall n x, ((9 # 10) * policy_cost arr goal n x <= Vf arr vals x)%Q.
Proof.
  intros Hwf Hsub Hres n. assert (Hwf0 : wf_policy 0 arr).
  { destruct Hwf as [Hnd Hw]. split; [done|]. intros s Hs. destruct (Hw s Hs) as [?|(a&?&[Ha Hb]&?)]; [by left|].
    right. exists a. split_and!; auto. split; [|done]. intros o Ho. destruct (Ha o Ho). split; [done|lia]. }
  induction n as [|n IH]; intros x.
  - simpl. pose proof (si_nonneg _ _ _ Hsub x). lra.
  - destruct (policy_cost_cases arr goal n x Hwf0) as [[-> _]|(s&a&Hs&<-&Hne&Ha&_&H)].
    + pose proof (si_nonneg _ _ _ Hsub x). lra.
    + rewrite H. destruct Hwf as [_ Hw]. destruct (Hw s Hs) as [E|(b&E&Hok&_)]; [congruence|].
      rewrite Ha in E. injection E as <-. pose proof (Hres s a Hs Hne Ha) as Hr.
      destruct (expect_cost 1 (ea_outs a) (Vf arr vals) Hok) as [Hc Hv].
      destruct (expect_cost 1 (ea_outs a) (policy_cost arr goal n) Hok) as [_ Hp].
      unfold Tf in *. rewrite Hp. rewrite Hv in Hr.
      assert (Hm : ((9 # 10) * expect (ea_outs a) (fun _ y => policy_cost arr goal n y) <= expect (ea_outs a) (fun _ y => Vf arr vals y))%Q).
      { rewrite <- expect_scale. apply expect_mono; [by eauto using outs_ok_nonneg|]. intros o _. apply IH. }
      unfold EV_MINDELTA in Hr. change (inject_Z 1) with 1%Q in Hc. lra.
Qed.
