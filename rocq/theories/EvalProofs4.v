(** EvaluatePolicy ends exactly when every state can reach the goal. *)
From Verif Require Import Base MdpModel MdpSpec MdpProofs EvalModel EvalSpec EvalProofs EvalProofs2 EvalProofs3.
From Coq Require Import Lqa.
Local Open Scope Z_scope.

Lemma wf_policy_weaken c arr : 0 <= c -> wf_policy c arr -> wf_policy 0 arr.
Proof.
  intros Hc [Hnd Hw]. split; [done|]. intros s Hs. destruct (Hw s Hs) as [?|(a&?&[Ha Hb]&?)]; [by left|].
  right. exists a. split_and!; auto. split; [|done]. intros o Ho. destruct (Ha o Ho). split; [done|lia].
Qed.

(** * A bound on the values forces every state to reach the goal *)
Lemma outcome_below c outs (f : Z -> Q) v : outs_ok c outs -> (expect outs (fun _ x => f x) <= v)%Q ->
  exists o, o ∈ outs /\ (f (o.1.1) <= v)%Q.
Proof.
  intros Hok Hv.
  destruct (existsb (fun o => Qle_bool (f (o.1.1)) v) outs) eqn:E.
  - apply existsb_exists in E as (o&Ho&Hle). exists o. split; [by apply elem_of_list_In|]. by apply Qle_bool_iff.
  - exfalso. assert (Hgt : forall o, o ∈ outs -> (v < f (o.1.1))%Q).
    { intros o Ho. apply Qnot_le_lt. intros Hle. apply Qle_bool_iff in Hle.
      assert (existsb (fun o => Qle_bool (f (o.1.1)) v) outs = true); [|congruence].
      apply existsb_exists. exists o. split; [by apply elem_of_list_In|done]. }
    clear E. destruct Hok as [Hp H1].
    assert (Hx : (v * expect outs (fun _ _ => 1) <= expect outs (fun _ x => f x))%Q /\
                 (outs <> [] -> v * expect outs (fun _ _ => 1) < expect outs (fun _ x => f x))%Q).
    { clear Hv H1. induction outs as [|o outs IH]; simpl; [split; [lra|done]|].
      destruct IH as [IH _]; [intros; apply Hp; set_solver|intros; apply Hgt; set_solver|].
      destruct (Hp o) as [Hpo _]; [set_solver|]. specialize (Hgt o ltac:(set_solver)).
      assert (o.2 * v < o.2 * f (o.1.1))%Q by nra. split; [|intros _]; lra. }
    destruct Hx as [_ Hx]. rewrite H1 in Hx. destruct outs; [simpl in H1; lra|]. specialize (Hx ltac:(done)). lra.
Qed.

Lemma residual_reaches arr goal vals : wf_policy 1 arr -> full_policy arr goal -> sub_inv arr goal vals ->
  residual arr goal vals EV_MINDELTA -> forall s, s ∈ arr -> rtc (id_step arr) (es_id s) goal.
Proof.
  intros Hwf Hfull Hsub Hres. pose proof Hwf as [Hnd Hw].
  assert (Hn : forall n s, s ∈ arr -> (Vf arr vals (es_id s) <= inject_Z (Z.of_nat n) * (9 # 10))%Q ->
    rtc (id_step arr) (es_id s) goal).
  { induction n as [|n IH]; intros s Hs Hle; (destruct (Z.eq_dec (es_id s) goal) as [-> | Hne]; [done|]);
      (destruct (Hw s Hs) as [E|(a&E&Hok&Hin)]; [by destruct (Hfull s)|]);
      pose proof (Hres s a Hs Hne E) as Hr; unfold Tf in Hr;
      destruct (expect_cost 1 (ea_outs a) (Vf arr vals) Hok) as [Hc Hv]; rewrite Hv in Hr;
      unfold EV_MINDELTA in Hr; change (inject_Z 1) with 1%Q in Hc;
      (destruct (outcome_below 1 (ea_outs a) (Vf arr vals) (Vf arr vals (es_id s) - (9 # 10)) Hok) as (o&Ho&Hlo); [lra|]).
    - change (inject_Z (Z.of_nat 0)) with 0%Q in Hle. pose proof (si_nonneg _ _ _ Hsub (o.1.1)). lra.
    - destruct (proj1 (elem_of_list_fmap _ _ _) (Hin o Ho)) as (t&Et&Ht).
      apply rtc_l with (o.1.1).
      + exists a, o. split_and!; [|done..]. by exists s.
      + rewrite Et. apply IH; [done|]. rewrite <- Et. rewrite Nat2Z.inj_succ in Hle. unfold Z.succ in Hle.
        rewrite inject_Z_plus in Hle. change (inject_Z 1) with 1%Q in Hle. lra. }
  intros s Hs.
  destruct (Qarchimedean (Vf arr vals (es_id s) * (10 # 9))) as [p Hp].
  apply (Hn (Pos.to_nat p)); [done|]. rewrite positive_nat_Z. change (Z.pos p # 1) with (inject_Z (Z.pos p)) in Hp. lra.
Qed.

(** * If every state can reach the goal then the values stay below a fixed bound *)
Lemma expect_split outs (f : Z -> Q) A u o : o ∈ outs -> (forall o, o ∈ outs -> (0 <= o.2)%Q) ->
  (forall x, (f x <= A)%Q) -> (f (o.1.1) <= u)%Q ->
  (expect outs (fun _ x => f x) <= A * expect outs (fun _ _ => 1) - o.2 * (A - u))%Q.
Proof.
  intros Ho Hp HA Hu. induction outs as [|o' outs IH]; [by apply elem_of_nil in Ho|].
  simpl. assert (Hp' : (0 <= o'.2)%Q) by (apply Hp; set_solver). specialize (HA (o'.1.1)) as HA'.
  apply elem_of_cons in Ho as [-> | Ho].
  - assert (expect outs (fun _ x => f x) <= A * expect outs (fun _ _ => 1))%Q.
    { rewrite <- expect_const. apply expect_mono; [intros; apply Hp; set_solver|]. intros. apply HA. }
    assert (o'.2 * f (o'.1.1) <= o'.2 * u)%Q by nra. lra.
  - specialize (IH Ho ltac:(intros; apply Hp; set_solver)).
    assert (o'.2 * f (o'.1.1) <= o'.2 * A)%Q by nra. lra.
Qed.

Fixpoint qpow (p : Q) (n : nat) : Q := match n with O => 1%Q | S n => (p * qpow p n)%Q end.
Lemma qpow_pos p n : (0 < p)%Q -> (0 < qpow p n)%Q.
Proof. intros Hp. induction n; simpl; [lra|nra]. Qed.
Lemma qpow_anti p n m : (0 < p)%Q -> (p <= 1)%Q -> (n <= m)%nat -> (qpow p m <= qpow p n)%Q.
Proof.
  intros Hp H1 H. induction H as [|m H IH]; [lra|]. simpl. pose proof (qpow_pos p m Hp). nra.
Qed.

Section reach.
Context (arr : list est) (goal : Z) (Hwf : wf_policy 1 arr) (Hfull : full_policy arr goal).

Fixpoint rb (n : nat) (x : Z) : bool :=
  if x =? goal then true else
  match n with
  | O => false
  | S n => match list_find (fun s => es_id s = x) arr with
           | Some (_, s) => match es_acts s with a :: _ => existsb (fun o => rb n (o.1.1)) (ea_outs a) | [] => false end
           | None => false
           end
  end.
Lemma rb_S n s a : s ∈ arr -> es_id s <> goal -> es_acts s = [a] ->
  rb (S n) (es_id s) = existsb (fun o => rb n (o.1.1)) (ea_outs a).
Proof.
  intros Hs Hne Ha. apply elem_of_list_lookup in Hs as [i Hi]. simpl.
  destruct (Z.eqb_spec (es_id s) goal); [done|]. destruct Hwf. by rewrite (list_find_at arr i s), Ha.
Qed.
Lemma rb_mono n x : rb n x = true -> rb (S n) x = true.
Proof.
  revert x. induction n as [|n IH]; intros x H.
  - simpl in *. by destruct (x =? goal).
  - simpl in H. destruct (x =? goal) eqn:E; [simpl; by rewrite E|].
    destruct (list_find (fun s => es_id s = x) arr) as [[i s]|] eqn:El; [|done].
    destruct (es_acts s) as [|a acts] eqn:Ea; [done|]. apply existsb_exists in H as (o&Ho&Hrb).
    change (rb (S (S n)) x) with (if x =? goal then true else
      match list_find (fun s => es_id s = x) arr with
           | Some (_, s) => match es_acts s with a :: _ => existsb (fun o => rb (S n) (o.1.1)) (ea_outs a) | [] => false end
           | None => false end).
    rewrite E, El, Ea. apply existsb_exists. exists o. split; [done|]. by apply IH.
Qed.
Lemma rb_le n m x : (n <= m)%nat -> rb n x = true -> rb m x = true.
Proof. intros H. induction H; auto using rb_mono. Qed.
Lemma rb_goal n : rb n goal = true.
Proof. destruct n; simpl; by rewrite Z.eqb_refl. Qed.
Lemma reach_rb x : rtc (id_step arr) x goal -> exists n, rb n x = true.
Proof.
  intros H. refine (rtc_ind_l (fun x => exists n, rb n x = true) goal _ _ x H).
  - exists 0%nat. apply rb_goal.
  - intros y z (a&o&(s&Hs&<-&Ha)&Ho&<-) _ [n Hn].
    destruct (Z.eq_dec (es_id s) goal) as [-> | Hne]; [exists 0%nat; apply rb_goal|].
    exists (S n). rewrite (rb_S n s a) by done. apply existsb_exists. exists o. split; [by apply elem_of_list_In|done].
Qed.

Context (Hreach : forall s, s ∈ arr -> rtc (id_step arr) (es_id s) goal).
Lemma rb_all : exists N, forall s, s ∈ arr -> rb N (es_id s) = true.
Proof.
  assert (H : forall l : list est, (forall s, s ∈ l -> s ∈ arr) -> exists N, forall s, s ∈ l -> rb N (es_id s) = true).
  { induction l as [|s l IH]; intros Hl; [exists 0%nat; intros s Hs; by apply elem_of_nil in Hs|].
    destruct IH as [N HN]; [intros; apply Hl; set_solver|].
    destruct (reach_rb (es_id s)) as [n Hn]; [apply Hreach, Hl; set_solver|].
    exists (max n N). intros t [->|Ht]%elem_of_cons; [apply (rb_le n); [lia|done]|apply (rb_le N); [lia|auto]]. }
  apply H. done.
Qed.

Lemma prob_min : exists p, (0 < p)%Q /\ (p <= 1)%Q /\ forall s a o, s ∈ arr -> es_acts s = [a] -> o ∈ ea_outs a -> (p <= o.2)%Q.
Proof.
  destruct Hwf as [_ Hw].
  assert (Ho : forall l : list (Z * Z * Q), (forall o, o ∈ l -> (0 < o.2)%Q) -> exists p, (0 < p)%Q /\ (p <= 1)%Q /\ forall o, o ∈ l -> (p <= o.2)%Q).
  { induction l as [|o l IH]; intros Hl; [exists 1%Q; split_and!; try lra; intros o Ho; by apply elem_of_nil in Ho|].
    destruct IH as (p&Hp&H1&Hpl); [intros; apply Hl; set_solver|]. specialize (Hl o ltac:(set_solver)).
    destruct (Qlt_le_dec p (o.2)) as [Hlt|Hle].
    - exists p. split_and!; try lra. intros o' [->|Ho']%elem_of_cons; [lra|auto].
    - exists (o.2). split_and!; try lra. intros o' [->|Ho']%elem_of_cons; [lra|]. specialize (Hpl o' Ho'). lra. }
  destruct (Ho (arr ≫= (fun s => match es_acts s with [a] => ea_outs a | _ => [] end))) as (p&Hp&H1&Hpl).
  - intros o (s&Hos&Hs)%elem_of_list_bind. destruct (Hw s Hs) as [E|(a&E&[Hok _]&_)]; rewrite E in Hos.
    + by apply elem_of_nil in Hos.
    + by apply Hok.
  - exists p. split_and!; [done..|]. intros s a o Hs Ha Hoo. apply Hpl, elem_of_list_bind. exists s. by rewrite Ha.
Qed.
Lemma cost_max : exists C, (0 <= C)%Q /\ forall s a o, s ∈ arr -> es_acts s = [a] -> o ∈ ea_outs a -> (inject_Z (o.1.2) <= C)%Q.
Proof.
  assert (Ho : forall l : list (Z * Z * Q), exists C, (0 <= C)%Q /\ forall o, o ∈ l -> (inject_Z (o.1.2) <= C)%Q).
  { induction l as [|o l (C&HC&Hl)]; [exists 0%Q; split_and!; try lra; intros o Ho; by apply elem_of_nil in Ho|].
    destruct (Qlt_le_dec C (inject_Z (o.1.2))) as [Hlt|Hle].
    - exists (inject_Z (o.1.2)). split; [lra|]. intros o' [->|Ho']%elem_of_cons; [lra|]. specialize (Hl o' Ho'). lra.
    - exists C. split; [lra|]. intros o' [->|Ho']%elem_of_cons; [lra|auto]. }
  destruct (Ho (arr ≫= (fun s => match es_acts s with [a] => ea_outs a | _ => [] end))) as (C&HC&Hl).
  exists C. split_and!; [done..|]. intros s a o Hs Ha Hoo. apply Hl, elem_of_list_bind. exists s. by rewrite Ha.
Qed.

Lemma bound_exists : exists U : Z -> Q, (forall x, (0 <= U x)%Q) /\
  forall s a, s ∈ arr -> es_id s <> goal -> es_acts s = [a] -> (Tf (ea_outs a) U <= U (es_id s))%Q.
Proof.
  destruct rb_all as [N HN]. destruct prob_min as (p&Hp&Hp1&Hpm). destruct cost_max as (C&HC&HCm).
  set (d := fun x => match list_find (fun n => rb n x = true) (seq 0 (S N)) with Some (n, _) => n | None => 0%nat end).
  assert (Hd : forall x, (d x <= N)%nat).
  { intros x. unfold d. destruct (list_find _ _) as [[n m]|] eqn:E; [|lia].
    apply list_find_Some in E as (Hn&_). apply lookup_lt_Some in Hn. rewrite seq_length in Hn. lia. }
  assert (Hd_le : forall m x, (m <= N)%nat -> rb m x = true -> (d x <= m)%nat).
  { intros m x Hm Hr. unfold d. destruct (list_find _ _) as [[n k]|] eqn:E; [|lia].
    apply list_find_Some in E as (Hn&Hk&Hj). destruct (decide (n <= m)%nat); [done|]. exfalso.
    apply (Hj m m); [|lia|done]. apply lookup_seq_lt. lia. }
  assert (Hd_rb : forall s, s ∈ arr -> rb (d (es_id s)) (es_id s) = true).
  { intros s Hs. unfold d. destruct (list_find _ _) as [[n k]|] eqn:E.
    - apply list_find_Some in E as (Hn&Hk&_). apply lookup_seq in Hn as [-> _]. done.
    - exfalso. apply list_find_None in E. rewrite Forall_forall in E. apply (E N); [|by apply HN].
      apply elem_of_seq. lia. }
  set (NQ := inject_Z (Z.of_nat N)).
  assert (HNQ : (0 <= NQ)%Q) by (subst NQ; change 0%Q with (inject_Z 0); apply inject_le; lia).
  set (A := (C * NQ / qpow p N)%Q).
  pose proof (qpow_pos p N Hp) as HpN.
  assert (HA : (A * qpow p N == C * NQ)%Q). { subst A. field. lra. }
  assert (HA0 : (0 <= A)%Q). { apply Qnot_lt_le. intros Hlt. assert (0 <= C * NQ)%Q by nra. nra. }
  assert (Hk : forall k, (k <= N)%nat -> (C * inject_Z (Z.of_nat k) <= qpow p k * A)%Q).
  { intros k Hkn. pose proof (qpow_anti p k N Hp Hp1 Hkn).
    assert (inject_Z (Z.of_nat k) <= NQ)%Q by (apply inject_le; lia). nra. }
  set (u := fun k : nat => (A - qpow p k * A + C * inject_Z (Z.of_nat k))%Q).
  assert (HuA : forall k, (k <= N)%nat -> (u k <= A)%Q). { intros k Hkn. unfold u. specialize (Hk k Hkn). lra. }
  assert (Hmono : forall k m, (k <= m)%nat -> (u k <= u m)%Q).
  { intros k m Hkm. unfold u. pose proof (qpow_anti p k m Hp Hp1 Hkm).
    assert (inject_Z (Z.of_nat k) <= inject_Z (Z.of_nat m))%Q by (apply inject_le; lia). nra. }
  assert (Hu0 : (u 0%nat == 0)%Q). { unfold u. simpl. change (inject_Z (Z.of_nat 0)) with 0%Q. ring. }
  exists (fun x => u (d x)). split.
  - intros x. rewrite <- Hu0. apply Hmono. lia.
  - intros s a Hs Hne Ha. destruct Hwf as [_ Hw]. destruct (Hw s Hs) as [E|(b&E&Hok&Hin)]; [congruence|].
    rewrite Ha in E. injection E as <-.
    pose proof (Hd_rb s Hs) as Hr. destruct (d (es_id s)) as [|m] eqn:Em.
    { simpl in Hr. destruct (Z.eqb_spec (es_id s) goal); done. }
    rewrite (rb_S m s a Hs Hne Ha) in Hr. apply existsb_exists in Hr as (o&Ho&Hro). apply elem_of_list_In in Ho.
    pose proof (Hd (es_id s)) as HdN. rewrite Em in HdN.
    destruct (expect_cost 1 (ea_outs a) (fun x => u (d x)) Hok) as [_ Hv]. unfold Tf. rewrite Hv.
    assert (Hc : (expect (ea_outs a) (fun c _ => inject_Z c) <= C)%Q).
    { apply Qle_trans with (expect (ea_outs a) (fun _ _ => C)).
      - apply expect_mono; [by eauto using outs_ok_nonneg|]. intros o' Ho'. by eapply HCm.
      - rewrite expect_const. destruct Hok as [_ ->]. lra. }
    pose proof (expect_split (ea_outs a) (fun x => u (d x)) A (u m) o Ho) as Hs1.
    assert (Hs2 : (expect (ea_outs a) (fun _ x => u (d x)) <= A * 1 - o.2 * (A - u m))%Q).
    { destruct Hok as [Hok1 Hok2]. rewrite <- Hok2. apply Hs1.
      - intros o' Ho'. destruct (Hok1 o' Ho'). lra.
      - intros x. apply HuA, Hd.
      - apply Hmono, Hd_le; [lia|done]. }
    assert (Hpo : (p <= o.2)%Q) by (by eapply Hpm).
    pose proof (HuA m ltac:(lia)) as Hum.
    assert (Hs3 : (p * (A - u m) <= o.2 * (A - u m))%Q) by nra.
    unfold u in Hs3, Hs2 |- *. simpl (qpow p (S m)). rewrite Nat2Z.inj_succ. unfold Z.succ. rewrite inject_Z_plus.
    change (inject_Z 1) with 1%Q.
    assert (0 <= inject_Z (Z.of_nat m))%Q by (change 0%Q with (inject_Z 0); apply inject_le; lia).
    assert (0 <= C * inject_Z (Z.of_nat m))%Q by nra.
    assert (p * (C * inject_Z (Z.of_nat m)) <= C * inject_Z (Z.of_nat m))%Q by nra.
    set (X := (C * inject_Z (Z.of_nat m))%Q) in *. set (Y := (qpow p m * A)%Q) in *.
    assert (HY : (p * qpow p m * A == p * Y)%Q) by (subst Y; ring). rewrite HY.
    assert (HX : (C * (inject_Z (Z.of_nat m) + 1) == X + C)%Q) by (subst X; ring). rewrite HX.
    lra.
Qed.
End reach.
