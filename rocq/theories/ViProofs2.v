(** The value-iteration planner: values are lower bounds after any history. *)
From Verif Require Import Base MdpModel MdpSpec EvalModel EvalSpec EvalProofs EvalProofs2 EvalProofs3 ViModel ViSpec ViProofs.
From Coq Require Import Lqa.
Local Open Scope Z_scope.

Section lower.
Context (env : vienv) (goal : Z) (Henv : env_ok 0 env) (Hadm : admissible env goal).

Record st_inv (st : vist) : Prop := {
  li_below : forall x, below_optimum env goal x (Vv env st x);
  li_nonneg : forall x, (0 <= Vv env st x)%Q;
  li_acts : forall x, vd_acts (vi_get env st x) = [] \/ vd_acts (vi_get env st x) = ve_acts env x;
  li_best : forall x a, vd_best (vi_get env st x) = Some a -> a ∈ vd_acts (vi_get env st x);
}.
Lemma st_inv_data st st' : (forall x, vd_v (vi_get env st' x) = vd_v (vi_get env st x) /\
  vd_best (vi_get env st' x) = vd_best (vi_get env st x) /\ vd_acts (vi_get env st' x) = vd_acts (vi_get env st x)) ->
  st_inv st -> st_inv st'.
Proof.
  intros H [B N A S]. split; intros x; destruct (H x) as (Ev&Eb&Ea); unfold Vv in *; rewrite ?Ev, ?Eb, ?Ea; auto.
Qed.
Lemma st_inv_mdp st st' : vi_mdp st' = vi_mdp st -> st_inv st -> st_inv st'.
Proof. intros E. apply st_inv_data. intros x. by rewrite (get_mdp env st st' x E). Qed.
Lemma st_inv_empty it d b : st_inv (mkVI ∅ it d b).
Proof.
  assert (G : forall x, vi_get env (mkVI ∅ it d b) x = vi_fresh env x) by (intros x; unfold vi_get; simpl; by rewrite lookup_empty).
  split; intros x; unfold Vv; rewrite G; simpl; auto.
  - apply Hadm.
  - change 0%Q with (inject_Z 0). apply inject_le, Hadm.
  - done.
Qed.

Lemma vi_put_get st id d x : vi_get env (vi_put st id d) x = if x =? id then d else vi_get env st x.
Proof. unfold vi_put. rewrite get_insert. by destruct st. Qed.
Lemma set_actions_spec st id : st_inv st ->
  let st' := vi_set_actions env st id in
  st_inv st' /\ vd_acts (vi_get env st' id) = ve_acts env id /\
  vi_iter st' = vi_iter st /\ vi_delta st' = vi_delta st /\ vi_backups st' = vi_backups st /\
  (forall x, vd_v (vi_get env st' x) = vd_v (vi_get env st x) /\ vd_iter (vi_get env st' x) = vd_iter (vi_get env st x) /\
             vd_best (vi_get env st' x) = vd_best (vi_get env st x)).
Proof.
  intros Hst. unfold vi_set_actions. destruct (vd_acts (vi_get env st id)) as [|a acts] eqn:E.
  - set (d := mkVD _ _ _ _). assert (G : forall x, vi_get env (vi_put st id d) x = if x =? id then d else vi_get env st x)
      by apply vi_put_get.
    split_and!; try done.
    + destruct Hst as [B N A S]. split; intros x; unfold Vv in *; rewrite G; destruct (Z.eqb_spec x id) as [-> | _]; simpl; auto.
      intros a Ha. apply S in Ha. rewrite E in Ha. by apply elem_of_nil in Ha.
    + by rewrite G, Z.eqb_refl.
    + intros x. rewrite G. by destruct (Z.eqb_spec x id) as [-> | _].
  - split_and!; try done. destruct (li_acts _ Hst id) as [E2|E2]; congruence.
Qed.

Lemma backup_get st id x : vi_get env (vi_backup env goal st id) x =
  if x =? id then
    if id =? goal then mkVD 0%Q (vd_iter (vi_get env st id)) None (vd_acts (vi_get env st id))
    else let r := vi_min env st (vd_acts (vi_get env st id)) (inject_Z INFINITECOST) None in
         mkVD (r.1) (vd_iter (vi_get env st id)) (r.2) (vd_acts (vi_get env st id))
  else vi_get env st x.
Proof. unfold vi_backup. destruct (id =? goal); rewrite get_insert; by destruct st. Qed.
Lemma backup_inv st id : st_inv st -> vd_acts (vi_get env st id) = ve_acts env id -> st_inv (vi_backup env goal st id).
Proof.
  intros [B N A S] Hacts.
  assert (Hval : let d := vi_get env (vi_backup env goal st id) id in
     below_optimum env goal id (vd_v d) /\ (0 <= vd_v d)%Q /\ (forall a, vd_best d = Some a -> a ∈ vd_acts d)).
  { rewrite backup_get, Z.eqb_refl. destruct (Z.eqb_spec id goal) as [-> | Hne]; simpl.
    - split_and!; [apply below_goal; lra|lra|done].
    - pose proof (vi_min_spec env st (vd_acts (vi_get env st id)) (inject_Z INFINITECOST) None I) as H. simpl in H.
      destruct (vi_min env st (vd_acts (vi_get env st id)) (inject_Z INFINITECOST) None) as [q [a|]]; simpl in *.
      + destruct H as ([Ha|?]&Hq&Hall); [|done]. split_and!.
        * apply (below_backup env goal Henv (Vv env st)); [apply B|done|]. intros b Hb. apply Hall. left. by rewrite Hacts.
        * rewrite Hq. rewrite Hacts in Ha. pose proof (Henv id a Ha) as Hok.
          apply expect_nonneg; [by eauto using outs_ok_nonneg|]. intros o Ho. pose proof (N (o.1.1)).
          assert (inject_Z 0 <= inject_Z (o.1.2))%Q by (apply inject_le; by apply Hok). change (inject_Z 0) with 0%Q in *. lra.
        * by intros b [= <-].
      + destruct H as (E&_&->). rewrite Hacts in E. split_and!; [|unfold INFINITECOST; discriminate|done].
        apply (below_backup env goal Henv (Vv env st)); [apply B|done|]. intros b Hb. rewrite E in Hb. by apply elem_of_nil in Hb. }
  destruct Hval as (V1&V2&V3). split; intros x; unfold Vv in *.
  - destruct (Z.eq_dec x id) as [-> | Hx]; [done|]. rewrite backup_get. rewrite (proj2 (Z.eqb_neq x id) Hx). apply B.
  - destruct (Z.eq_dec x id) as [-> | Hx]; [done|]. rewrite backup_get. rewrite (proj2 (Z.eqb_neq x id) Hx). apply N.
  - rewrite backup_get. destruct (Z.eqb_spec x id) as [-> | _]; [|apply A]. destruct (id =? goal); simpl; by right.
  - destruct (Z.eq_dec x id) as [-> | Hx]; [done|]. rewrite backup_get. rewrite (proj2 (Z.eqb_neq x id) Hx). apply S.
Qed.
Lemma push_inv st outs wl st' wl' : push_spec env outs st wl st' wl' -> st_inv st -> st_inv st'.
Proof. intros H. apply st_inv_data. apply (ps_data _ _ _ _ _ _ H). Qed.

(** One step of the forward work list. *)
Definition vi_step (st : vist) (id : Z) : vist := vi_backup env goal (vi_set_actions env st id) id.
Lemma step_inv st id : st_inv st -> st_inv (vi_step st id) /\ vd_acts (vi_get env (vi_step st id) id) = ve_acts env id.
Proof.
  intros Hst. destruct (set_actions_spec st id Hst) as (H1&H2&_). unfold vi_step. split.
  - by apply backup_inv.
  - rewrite backup_get, Z.eqb_refl. by destruct (id =? goal).
Qed.
Lemma step_push st id wl : st_inv st ->
  push_spec env (best_outs (vi_get env (vi_step st id) id)) (vi_step st id) wl
    (vi_push_acts env id (vd_acts (vi_get env (vi_step st id) id)) (vi_step st id) wl).1
    (vi_push_acts env id (vd_acts (vi_get env (vi_step st id) id)) (vi_step st id) wl).2.
Proof.
  intros Hst. apply vi_push_acts_spec. intros E. destruct (step_inv st id Hst) as [H1 _].
  destruct (vd_best (vi_get env (vi_step st id) id)) as [a|] eqn:Eb; [|done].
  apply (li_best _ H1) in Eb. rewrite E in Eb. by apply elem_of_nil in Eb.
Qed.
Lemma forward_inv fuel : forall st wl st', st_inv st -> vi_forward fuel env goal st wl = Ok st' -> st_inv st'.
Proof.
  induction fuel as [|fuel IH]; intros st wl st' Hst; simpl; [done|].
  destruct wl as [|id wl]; [by intros [= <-]|]. fold (vi_step st id).
  pose proof (step_push st id wl Hst) as Hp. apply IH. eapply push_inv; [exact Hp|]. by apply step_inv.
Qed.
Lemma iterate_inv fuel start clock : forall st st' b, st_inv st ->
  vi_iterate fuel env start goal clock st = Ok (st', b) -> st_inv st'.
Proof.
  induction clock as [|[] clock IH]; intros st st' b Hst; simpl; [by intros [= <- _]| |by intros [= <- _]].
  destruct (qltb MDP_ERRDELTA (vi_delta st)); [|by intros [= <- _]].
  intros H. apply obind_ok in H as (st1&H1&H). eapply IH; [|exact H]. eapply forward_inv; [|exact H1].
  by apply (st_inv_mdp st).
Qed.
Lemma policy_inv fuel : forall st wl pol st' pol', st_inv st -> vi_policy fuel env goal st wl pol = Ok (st', pol') ->
  st_inv st' /\ forall x, vd_v (vi_get env st' x) = vd_v (vi_get env st x).
Proof.
  induction fuel as [|fuel IH]; intros st wl pol st' pol' Hst; simpl; [done|].
  destruct wl as [|id wl]; [by intros [= <- _]|]. destruct (id =? goal); [by apply IH|].
  destruct (vd_best (vi_get env st id)) as [a|]; [|by apply IH].
  pose proof (vi_push_spec env (ea_outs a) st wl) as Hp. intros H. apply IH in H as [H1 H2]; [|by eapply push_inv].
  split; [done|]. intros x. rewrite H2. apply (ps_data _ _ _ _ _ _ Hp).
Qed.
Lemma print_inv fuel start st st' pol : st_inv st -> vi_print_policy fuel env start goal st = Ok (st', pol) ->
  st_inv st' /\ forall x, vd_v (vi_get env st' x) = vd_v (vi_get env st x).
Proof.
  intros Hst H. unfold vi_print_policy in H. set (st1 := mkVI _ _ _ _) in H.
  assert (H1 : st_inv st1) by (by apply (st_inv_mdp st)).
  set (d := mkVD _ _ _ _) in H.
  assert (G : forall x, vd_v (vi_get env (vi_put st1 start d) x) = vd_v (vi_get env st x) /\
     vd_best (vi_get env (vi_put st1 start d) x) = vd_best (vi_get env st x) /\
     vd_acts (vi_get env (vi_put st1 start d) x) = vd_acts (vi_get env st x)).
  { intros x. rewrite vi_put_get. by destruct (Z.eqb_spec x start) as [-> | _]. }
  apply policy_inv in H as [H2 H3]; [|by apply (st_inv_data st)].
  split; [done|]. intros x. rewrite H3. apply G.
Qed.
Lemma replan_inv fuel efuel start clock st st' r : st_inv st ->
  vi_replan fuel efuel env start goal clock st = Ok (st', r) ->
  st_inv st' /\ vr_vstart r = vd_v (vi_get env st' start).
Proof.
  intros Hst H. unfold vi_replan in H. apply obind_ok in H as ([st1 b]&H1&H). apply obind_ok in H as ([st2 pol]&H2&H).
  apply obind_ok in H as (e&H3&[= <- <-]). simpl in *.
  apply iterate_inv in H1; [|by apply (st_inv_mdp st)]. apply print_inv in H2 as [H2 _]; [|done]. by split.
Qed.
Lemma history_inv st : vi_history env goal st -> st_inv st.
Proof.
  induction 1 as [d b|st fuel efuel start clock st' r _ IH H|st d b _ IH].
  - apply st_inv_empty.
  - by apply replan_inv in H as [? _].
  - by apply (st_inv_mdp st).
Qed.
End lower.
