(** Expectation algebra and the value part of EvaluatePolicy's sweeps. *)
From Verif Require Import Base MdpModel MdpSpec MdpProofs EvalModel EvalSpec.
From Coq Require Import Lqa.
Local Open Scope Z_scope.

Lemma qltb_true x y : qltb x y = true <-> (x < y)%Q.
Proof.
  unfold qltb. rewrite negb_true_iff. split.
  - intros H. apply Qnot_le_lt. intros Hle. apply Qle_bool_iff in Hle. congruence.
  - intros H. apply not_true_is_false. intros Hle%Qle_bool_iff. lra.
Qed.
Lemma qltb_false x y : qltb x y = false <-> (y <= x)%Q.
Proof.
  unfold qltb. rewrite negb_false_iff. apply Qle_bool_iff.
Qed.
Lemma inject_le a b : (a <= b)%Z -> (inject_Z a <= inject_Z b)%Q.
Proof. intros H. by rewrite <- Zle_Qle. Qed.

(** * Expectation *)
Lemma expect_mono outs f g :
  (forall o, o ∈ outs -> (0 <= o.2)%Q) -> (forall o, o ∈ outs -> (f (o.1.2) (o.1.1) <= g (o.1.2) (o.1.1))%Q) ->
  (expect outs f <= expect outs g)%Q.
Proof.
  induction outs as [|o outs IH]; intros Hp Hf; simpl; [lra|].
  assert (expect outs f <= expect outs g)%Q by (apply IH; intros; [apply Hp|apply Hf]; set_solver).
  assert (o.2 * f (o.1.2) (o.1.1) <= o.2 * g (o.1.2) (o.1.1))%Q.
  { specialize (Hf o ltac:(set_solver)). specialize (Hp o ltac:(set_solver)). nra. }
  lra.
Qed.
Lemma expect_add outs f g : (expect outs (fun c x => f c x + g c x) == expect outs f + expect outs g)%Q.
Proof. induction outs as [|o outs IH]; simpl; [reflexivity|]. rewrite IH. ring. Qed.
Lemma expect_scale outs k f : (expect outs (fun c x => k * f c x) == k * expect outs f)%Q.
Proof. induction outs as [|o outs IH]; simpl; [ring|]. rewrite IH. ring. Qed.
Lemma expect_const outs k : (expect outs (fun _ _ => k) == k * expect outs (fun _ _ => 1))%Q.
Proof. induction outs as [|o outs IH]; simpl; [ring|]. rewrite IH. ring. Qed.
Lemma expect_nonneg outs f :
  (forall o, o ∈ outs -> (0 <= o.2)%Q) -> (forall o, o ∈ outs -> (0 <= f (o.1.2) (o.1.1))%Q) -> (0 <= expect outs f)%Q.
Proof.
  intros Hp Hf. apply Qle_trans with (expect outs (fun _ _ => 0%Q)).
  - rewrite expect_const. lra.
  - by apply expect_mono.
Qed.
Lemma outs_ok_nonneg c outs o : outs_ok c outs -> o ∈ outs -> (0 <= o.2)%Q.
Proof. intros [H _] Ho. specialize (H o Ho). lra. Qed.
(** Raising every value by at most d raises the expectation by at most d. *)
Lemma expect_shift c outs f g d : outs_ok c outs ->
  (forall o, o ∈ outs -> (f (o.1.2) (o.1.1) <= g (o.1.2) (o.1.1) + d)%Q) -> (expect outs f <= expect outs g + d)%Q.
Proof.
  intros Hok Hf. apply Qle_trans with (expect outs (fun c x => g c x + d)%Q).
  - apply expect_mono; [by eauto using outs_ok_nonneg|done].
  - rewrite expect_add, expect_const. destruct Hok as [_ ->]. lra.
Qed.
(** If costs are at least c then the expectation of cost plus value is at least c plus that of the value. *)
Lemma expect_cost c outs f : outs_ok c outs -> (inject_Z c <= expect outs (fun z _ => inject_Z z))%Q /\
  (expect outs (fun z x => inject_Z z + f x) == expect outs (fun z _ => inject_Z z) + expect outs (fun _ x => f x))%Q.
Proof.
  intros Hok. split; [|apply (expect_add outs (fun z _ => inject_Z z) (fun _ x => f x))].
  apply Qle_trans with (expect outs (fun _ _ => inject_Z c)).
  - rewrite expect_const. destruct Hok as [_ ->]. lra.
  - apply expect_mono; [by eauto using outs_ok_nonneg|]. intros o Ho. apply inject_le. by apply Hok.
Qed.

(** * Look-ups *)
Lemma ev_find_spec arr id k :
  match ev_find arr k id with
  | Some i => (k <= i)%nat /\ exists s, arr !! (i - k)%nat = Some s /\ es_id s = id
  | None => forall s, s ∈ arr -> es_id s <> id
  end.
Proof.
  revert k. induction arr as [|s arr IH]; intros k; simpl; [set_solver|].
  destruct (Z.eqb_spec (es_id s) id) as [E|E].
  - split; [lia|]. exists s. by rewrite Nat.sub_diag.
  - specialize (IH (S k)). destruct (ev_find arr (S k) id) as [i|].
    + destruct IH as (Hk&t&Ht&Hid). split; [lia|]. exists t. split; [|done].
      replace (i - k)%nat with (S (i - S k)) by lia. done.
    + intros t [->|Ht]%elem_of_cons; auto.
Qed.
Lemma ids_unique arr i j s t : NoDup (es_id <$> arr) ->
  arr !! i = Some s -> arr !! j = Some t -> es_id s = es_id t -> i = j.
Proof.
  intros Hnd Hi Hj E. eapply NoDup_lookup; [exact Hnd| |].
  - by rewrite list_lookup_fmap, Hi.
  - rewrite list_lookup_fmap, Hj. simpl. by rewrite E.
Qed.
Lemma ev_find_at arr i s : NoDup (es_id <$> arr) -> arr !! i = Some s -> ev_find arr 0 (es_id s) = Some i.
Proof.
  intros Hnd Hi. pose proof (ev_find_spec arr (es_id s) 0) as H. destruct (ev_find arr 0 (es_id s)) as [j|].
  - destruct H as (_&t&Ht&E). rewrite Nat.sub_0_r in Ht. f_equal. by eapply ids_unique.
  - exfalso. eapply H; [|done]. by eapply elem_of_list_lookup_2.
Qed.
Lemma ev_find_in arr id : id ∈ es_id <$> arr -> exists i s, ev_find arr 0 id = Some i /\ arr !! i = Some s /\ es_id s = id.
Proof.
  intros (s&->&Hs)%elem_of_list_fmap. pose proof (ev_find_spec arr (es_id s) 0) as H.
  destruct (ev_find arr 0 (es_id s)) as [j|]; [|by destruct (H s)].
  destruct H as (_&t&Ht&E). rewrite Nat.sub_0_r in Ht. eauto.
Qed.
Lemma list_find_at arr i s : NoDup (es_id <$> arr) -> arr !! i = Some s ->
  list_find (fun t => es_id t = es_id s) arr = Some (i, s).
Proof.
  intros Hnd Hi. apply list_find_Some. split_and!; [done|done|].
  intros j t Hj Hlt E. assert (j = i) by (eapply ids_unique; eauto). lia.
Qed.

(** * The value function held in [vals] *)
Definition Vf (arr : list est) (vals : list Q) (id : Z) : Q :=
  match ev_find arr 0 id with Some j => default 0%Q (vals !! j) | None => 0%Q end.
Lemma Vf_at arr vals i s v : NoDup (es_id <$> arr) -> arr !! i = Some s -> vals !! i = Some v -> Vf arr vals (es_id s) = v.
Proof. intros Hnd Hi Hv. unfold Vf. by rewrite (ev_find_at arr i s), Hv. Qed.
Lemma Vf_insert arr vals i s q id : NoDup (es_id <$> arr) -> arr !! i = Some s -> (i < length vals)%nat ->
  Vf arr (<[i := q]> vals) id = if id =? es_id s then q else Vf arr vals id.
Proof.
  intros Hnd Hi Hl. destruct (Z.eqb_spec id (es_id s)) as [-> | Hne].
  - eapply Vf_at; [done|done|]. by apply list_lookup_insert.
  - unfold Vf. pose proof (ev_find_spec arr id 0) as H. destruct (ev_find arr 0 id) as [j|]; [|done].
    destruct H as (_&t&Ht&E). rewrite Nat.sub_0_r in Ht. rewrite list_lookup_insert_ne; [done|]. congruence.
Qed.

Lemma ev_backup_ok arr vals outs q : length vals = length arr ->
  (forall o, o ∈ outs -> o.1.1 ∈ es_id <$> arr) ->
  exists r, ev_backup arr vals outs q = Ok r /\ (r == q + expect outs (fun c id => inject_Z c + Vf arr vals id))%Q.
Proof.
  intros Hl. revert q. induction outs as [|o outs IH]; intros q Ho; simpl.
  - exists q. split; [done|ring].
  - destruct (ev_find_in arr (o.1.1)) as (j&s&Hj&Hs&E); [apply Ho; set_solver|]. rewrite Hj.
    destruct (lookup_lt_is_Some_2 vals j) as [v Hv]; [rewrite Hl; by eapply lookup_lt_Some|]. rewrite Hv.
    destruct (IH (q + o.2 * (v + inject_Z (o.1.2)))%Q) as (r&Hr&Er); [intros; apply Ho; set_solver|].
    exists r. split; [done|]. rewrite Er. unfold Vf at 2. rewrite Hj, Hv. simpl. ring.
Qed.

(** * The predecessor pass never fails and leaves the values alone *)
Lemma to_mdp_lookup arr i : to_mdp arr !! i = to_mstate <$> arr !! i.
Proof. unfold to_mdp. by rewrite list_lookup_fmap. Qed.
Lemma wf_not_malformed c arr i : wf_policy c arr -> ~ malformed (to_mdp arr) i.
Proof.
  intros [_ Hwf] (s&Hs&Hm). rewrite to_mdp_lookup in Hs. apply fmap_Some in Hs as (t&Ht&->).
  destruct (Hwf t) as [E|(a&E&_&Ho)]; [by eapply elem_of_list_lookup_2| |]; simpl in Hm; rewrite E in Hm; simpl in Hm.
  - destruct Hm as [Hm|(?&?&?&?&?)]; [lia|done].
  - destruct Hm as [Hm|(b&acts&id&[= <- <-]&Hid&Hno)]; [lia|].
    unfold aSuccs, to_maction in Hid. simpl in Hid.
    apply elem_of_list_fmap in Hid as (o'&->&Ho'). apply elem_of_list_fmap in Ho' as (o&->&Hoo). simpl in *.
    specialize (Ho o Hoo). apply elem_of_list_fmap in Ho as (u&E2&Hu). apply elem_of_list_lookup in Hu as [k Hk].
    apply (Hno k (to_mstate u)); [by rewrite to_mdp_lookup, Hk|done].
Qed.
Lemma wf_path c arr i j : wf_policy c arr -> (i < length arr)%nat ->
  exists b, PathExists (to_mdp arr) i j = Ok b /\ (b = true <-> rtc (policy_step (to_mdp arr)) i j).
Proof.
  intros Hwf Hi. pose proof (path_exists_spec (to_mdp arr) i j) as H.
  assert (Hl : (i < length (to_mdp arr))%nat) by (unfold to_mdp; by rewrite fmap_length). specialize (H Hl).
  destruct (PathExists (to_mdp arr) i j) as [[]|e| |]; [| | |done|done].
  - eexists; split; [done|]. done.
  - eexists; split; [done|]. split; [done|]. intros Hr. by destruct H.
  - destruct H as (k&_&Hk). by apply (wf_not_malformed c) in Hk.
Qed.

Lemma ev_pred_outs_ok c arr first i j id predpc outs acc : wf_policy c arr -> (i < length arr)%nat ->
  exists r, ev_pred_outs arr first i j id predpc outs acc = Ok r.
Proof.
  intros Hwf Hi. revert acc. induction outs as [|o outs IH]; intros acc; simpl; [eauto|].
  destruct (o.1.1 =? id); [|apply IH].
  destruct (wf_path c arr i j Hwf Hi) as (b&Hb&_). destruct (first && negb (acc.2)); [rewrite Hb|]; simpl; apply IH.
Qed.
Lemma ev_preds_ok c arr first i id pcs js : wf_policy c arr -> (i < length arr)%nat ->
  forall j acc, (length js + j = length pcs)%nat -> exists r, ev_preds arr first i id pcs js j acc = Ok r.
Proof.
  intros Hwf Hi. induction js as [|s js IH]; intros j acc Hl; simpl; [eauto|].
  destruct (lookup_lt_is_Some_2 pcs j) as [p Hp]; [simpl in Hl; lia|]. rewrite Hp.
  destruct (ev_pred_outs_ok c arr first i j id p (match es_acts s with [] => [] | a :: _ => ea_outs a end) acc Hwf Hi) as [r ->].
  simpl. apply IH. simpl in Hl. lia.
Qed.
Definition same_vals (st st' : evst) : Prop :=
  ev_vals st' = ev_vals st /\ ev_delta st' = ev_delta st /\ ev_full st' = ev_full st /\ ev_first st' = ev_first st /\
  length (ev_pcs st') = length (ev_pcs st).
Lemma ev_pc_ok c arr start goal i s st : wf_policy c arr -> arr !! i = Some s -> length (ev_pcs st) = length arr ->
  exists st', ev_pc arr start goal i s st = Ok st' /\ same_vals st st'.
Proof.
  intros Hwf Hi Hl. pose proof (lookup_lt_Some _ _ _ Hi) as Hlt. unfold ev_pc.
  destruct (ev_preds_ok c arr (ev_first st) i (es_id s) (ev_pcs st) arr Hwf Hlt 0%nat (0%Q, 0, ev_cycles st)) as [r ->]; [lia|].
  simpl. set (pcs := if es_id s =? start then ev_pcs st else <[i:=r.1.1]> (ev_pcs st)).
  assert (Hpl : length pcs = length (ev_pcs st)) by (subst pcs; destruct (es_id s =? start); by rewrite ?insert_length).
  destruct (lookup_lt_is_Some_2 pcs i) as [p Hp]; [lia|]. rewrite Hp. eexists; split; [done|]. by split_and!.
Qed.

(** * The invariant of the sweeps *)
Fixpoint Qsum (l : list Q) : Q := match l with [] => 0%Q | x :: l => (x + Qsum l)%Q end.
Lemma Qsum_insert l i v q : l !! i = Some v -> (Qsum (<[i := q]> l) == Qsum l + (q - v))%Q.
Proof.
  revert i. induction l as [|x l IH]; intros [|i] H; simpl in *; try done.
  - injection H as ->. ring.
  - rewrite (IH i H). ring.
Qed.

Definition Tf (outs : list (Z * Z * Q)) (V : Z -> Q) : Q := expect outs (fun c id => (inject_Z c + V id)%Q).
Lemma Tf_mono c outs V W : outs_ok c outs -> (forall x, (V x <= W x)%Q) -> (Tf outs V <= Tf outs W)%Q.
Proof. intros Hok H. apply expect_mono; [by eauto using outs_ok_nonneg|]. intros o _. specialize (H (o.1.1)). lra. Qed.
Lemma Tf_shift c outs V W d : outs_ok c outs -> (forall x, (V x <= W x + d)%Q) -> (Tf outs V <= Tf outs W + d)%Q.
Proof. intros Hok H. apply (expect_shift c); [done|]. intros o _. specialize (H (o.1.1)). lra. Qed.

Record sub_inv (arr : list est) (goal : Z) (vals : list Q) : Prop := {
  si_len : length vals = length arr;
  si_nonneg : forall x, (0 <= Vf arr vals x)%Q;
  si_goal : Vf arr vals goal = 0%Q;
  si_sub : forall s a, s ∈ arr -> es_id s <> goal -> es_acts s = [a] ->
             (Vf arr vals (es_id s) <= Tf (ea_outs a) (Vf arr vals))%Q;
}.
Lemma sub_inv_init arr goal : wf_policy 0 arr -> sub_inv arr goal (replicate (length arr) 0%Q).
Proof.
  intros [Hnd Hwf].
  assert (Hz : forall x, Vf arr (replicate (length arr) 0%Q) x = 0%Q).
  { intros x. unfold Vf. destruct (ev_find arr 0 x) as [j|]; [|done].
    destruct (replicate (length arr) 0%Q !! j) as [q|] eqn:E; [|done]. by apply lookup_replicate in E as [-> _]. }
  split.
  - by rewrite replicate_length.
  - intros x. rewrite Hz. lra.
  - apply Hz.
  - intros s a Hs Hne Ha. rewrite Hz. destruct (Hwf s Hs) as [E|(b&E&Hok&_)]; [congruence|].
    rewrite Ha in E. injection E as <-. apply expect_nonneg; [by eauto using outs_ok_nonneg|].
    intros o Ho. rewrite Hz. assert (inject_Z 0 <= inject_Z (o.1.2))%Q by (apply inject_le; by apply Hok).
    change (inject_Z 0) with 0%Q in *. lra.
Qed.
Lemma sub_inv_update arr goal vals i s a q : wf_policy 0 arr -> sub_inv arr goal vals -> arr !! i = Some s ->
  es_id s <> goal -> es_acts s = [a] -> (q == Tf (ea_outs a) (Vf arr vals))%Q ->
  (forall x, (Vf arr vals x <= Vf arr (<[i := q]> vals) x)%Q) /\ sub_inv arr goal (<[i := q]> vals).
Proof.
  intros [Hnd Hwf] [Hl Hn Hg Hs] Hi Hne Ha Hq.
  assert (Hlt : (i < length vals)%nat) by (rewrite Hl; by eapply lookup_lt_Some).
  assert (Hin : s ∈ arr) by (by eapply elem_of_list_lookup_2).
  assert (Hge : forall x, (Vf arr vals x <= Vf arr (<[i := q]> vals) x)%Q).
  { intros x. rewrite (Vf_insert arr vals i s); [|done..]. destruct (Z.eqb_spec x (es_id s)) as [-> | _]; [|lra].
    rewrite Hq. by apply Hs. }
  split; [done|]. split.
  - by rewrite insert_length.
  - intros x. specialize (Hn x). specialize (Hge x). lra.
  - rewrite (Vf_insert arr vals i s); [|done..]. destruct (Z.eqb_spec goal (es_id s)) as [E|_]; [congruence|done].
  - intros t b Ht Hnt Hb. destruct (Hwf t Ht) as [E|(b'&E&Hok&_)]; [congruence|]. rewrite Hb in E. injection E as <-.
    apply Qle_trans with (Tf (ea_outs b) (Vf arr vals)).
    + rewrite (Vf_insert arr vals i s); [|done..]. destruct (Z.eqb_spec (es_id t) (es_id s)) as [E|_].
      * assert (t = s) as ->.
        { apply elem_of_list_lookup in Ht as [j Hj]. assert (j = i) by (eapply ids_unique; eauto). congruence. }
        assert (a = b) as -> by congruence. lra.
      * by apply Hs.
    + by apply (Tf_mono 0).
Qed.
