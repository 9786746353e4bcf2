(** The value-iteration planner: what one forward iteration establishes. *)
From Verif Require Import Base MdpModel MdpSpec EvalModel EvalSpec EvalProofs EvalProofs2 EvalProofs3 EvalProofs4 ViModel ViSpec ViProofs ViProofs2.
From Coq Require Import Lqa.
Local Open Scope Z_scope.

Section iter.
Context (env : vienv) (goal : Z) (Henv : env_ok 0 env) (Hadm : admissible env goal).
Notation st_inv := (st_inv env goal).
Notation vi_step := (vi_step env goal).

Lemma goal_zero st : st_inv st -> (Vv env st goal == 0)%Q.
Proof.
  intros Hst. pose proof (li_nonneg _ _ _ Hst goal). pose proof (below_goal_inv env goal _ (li_below _ _ _ Hst goal)). lra.
Qed.
Lemma step_frame st id : st_inv st ->
  vi_iter (vi_step st id) = vi_iter st /\ vi_backups (vi_step st id) = vi_backups st + 1 /\
  (forall x, vd_iter (vi_get env (vi_step st id) x) = vd_iter (vi_get env st x)) /\
  (forall x, x <> id -> Vv env (vi_step st id) x = Vv env st x /\
                        vd_best (vi_get env (vi_step st id) x) = vd_best (vi_get env st x)).
Proof.
  intros Hst. destruct (set_actions_spec env goal st id Hst) as (H1&H2&H3&H4&H5&H6). unfold ViProofs2.vi_step. split_and!.
  - unfold vi_backup. destruct (id =? goal); simpl; done.
  - unfold vi_backup. destruct (id =? goal); simpl; lia.
  - intros x. rewrite backup_get. destruct (H6 x) as (_&E&_). destruct (Z.eqb_spec x id) as [-> | _]; [|done].
    by destruct (id =? goal).
  - intros x Hx. unfold Vv. rewrite backup_get. rewrite (proj2 (Z.eqb_neq x id) Hx). by destruct (H6 x) as (?&_&?).
Qed.
Lemma step_res st id : st_inv st -> (0 <= vi_delta st)%Q ->
  (0 <= vi_delta (vi_step st id))%Q /\
  ((vi_delta (vi_step st id) <= MDP_ERRDELTA)%Q ->
    (vi_delta st <= vi_delta (vi_step st id))%Q /\
    (forall x, Vv env st x <= Vv env (vi_step st id) x + vi_delta (vi_step st id))%Q /\
    (forall x, Vv env (vi_step st id) x <= Vv env st x + vi_delta (vi_step st id))%Q /\
    (id <> goal -> exists a, vd_best (vi_get env (vi_step st id) id) = Some a /\
         (Vv env (vi_step st id) id == Tf (ea_outs a) (Vv env st))%Q)).
Proof.
  intros Hst Hd. destruct (set_actions_spec env goal st id Hst) as (H1&H2&H3&H4&H5&H6).
  destruct (step_frame st id Hst) as (_&_&_&Hx).
  destruct (step_inv env goal Henv st id Hst) as [Hst2 _].
  destruct (Z.eq_dec id goal) as [-> | Hne].
  - assert (Ed : vi_delta (vi_step st goal) = vi_delta st).
    { unfold ViProofs2.vi_step, vi_backup. rewrite Z.eqb_refl. simpl. done. }
    rewrite Ed. split; [done|]. intros _. pose proof (goal_zero st Hst). pose proof (goal_zero _ Hst2).
    assert (Hxx : forall x, (Vv env (vi_step st goal) x == Vv env st x)%Q).
    { intros x. destruct (Z.eq_dec x goal) as [-> | Hn]; [lra|]. destruct (Hx x Hn) as [-> _]. lra. }
    split_and!; try lra; try done; intros x; rewrite (Hxx x); lra.
  - set (s1 := vi_set_actions env st id) in *. unfold ViProofs2.vi_step in *. fold s1 in Hx, Hst2 |- *.
    set (r := vi_min env s1 (vd_acts (vi_get env s1 id)) (inject_Z INFINITECOST) None).
    assert (Ed : vi_delta (vi_backup env goal s1 id) = match vd_best (vi_get env s1 id) with
        | None => inject_Z INFINITECOST
        | Some _ => let e := qabs (vd_v (vi_get env s1 id) - r.1)%Q in if qltb (vi_delta s1) e then e else vi_delta s1 end).
    { unfold vi_backup. rewrite (proj2 (Z.eqb_neq id goal) Hne). done. }
    assert (Ev : vi_get env (vi_backup env goal s1 id) id =
       mkVD (r.1) (vd_iter (vi_get env s1 id)) (r.2) (vd_acts (vi_get env s1 id))).
    { rewrite backup_get, Z.eqb_refl, (proj2 (Z.eqb_neq id goal) Hne). done. }
    assert (HVs : forall x, Vv env s1 x = Vv env st x) by (intros x; unfold Vv; by destruct (H6 x) as (->&_)).
    destruct (vd_best (vi_get env s1 id)) as [b|] eqn:Eb.
    + set (e := qabs (vd_v (vi_get env s1 id) - r.1)) in *. simpl in Ed.
      assert (Hde : (vi_delta st <= vi_delta (vi_backup env goal s1 id))%Q /\ (e <= vi_delta (vi_backup env goal s1 id))%Q).
      { rewrite Ed, <- H4. destruct (qltb (vi_delta s1) e) eqn:E; [apply qltb_true in E|apply qltb_false in E]; lra. }
      destruct Hde as [Hde1 Hde2]. split; [lra|]. intros _.
      assert (Hvd : (Vv env st id <= r.1 + vi_delta (vi_backup env goal s1 id))%Q /\
                    (r.1 <= Vv env st id + vi_delta (vi_backup env goal s1 id))%Q).
      { rewrite <- HVs. unfold Vv. destruct (qabs_bounds _ _ Hde2). lra. }
      destruct Hvd as [Hv1 Hv2].
      assert (HVid : Vv env (vi_backup env goal s1 id) id = r.1) by (unfold Vv; by rewrite Ev).
      split_and!; [done| | |].
      * intros x. destruct (Z.eq_dec x id) as [-> | Hn]; [by rewrite HVid|]. destruct (Hx x Hn) as [-> _]. lra.
      * intros x. destruct (Z.eq_dec x id) as [-> | Hn]; [by rewrite HVid|]. destruct (Hx x Hn) as [-> _]. lra.
      * intros _. pose proof (vi_min_spec env s1 (vd_acts (vi_get env s1 id)) (inject_Z INFINITECOST) None I) as Hm.
        cbv zeta in Hm. fold r in Hm. rewrite Ev, HVid. simpl.
        apply (li_best _ _ _ H1) in Eb. destruct (r.2) as [a|].
        -- exists a. split; [done|]. destruct Hm as (_&Hq&_). rewrite Hq.
           unfold Tf. assert (Hext : forall outs, (expect outs (fun c y => inject_Z c + Vv env s1 y) == expect outs (fun c y => inject_Z c + Vv env st y))%Q).
           { induction outs as [|o outs IHo]; simpl; [lra|]. rewrite IHo, HVs. lra. }
           apply Hext.
        -- destruct Hm as (E&_). rewrite E in Eb. by apply elem_of_nil in Eb.
    + rewrite Ed. split; [unfold INFINITECOST; discriminate|]. unfold INFINITECOST, MDP_ERRDELTA. intros H. exfalso.
      change (1000000000 # 1 <= 1 # 100)%Q in H. lra.
Qed.

Context (start : Z).
Definition mk (st : vist) (x : Z) : Prop := vd_iter (vi_get env st x) = vi_iter st.
Record resid (st : vist) (B1 : list Z) (x : Z) : Prop := {
  rs_ex : exists a Vt, vd_best (vi_get env st x) = Some a /\ (Vv env st x == Tf (ea_outs a) Vt)%Q /\
    forall y, (Vt y <= Vv env st y + vi_delta st)%Q /\ (Vv env st y <= Vt y + vi_delta st)%Q /\
              (y ∉ B1 -> y <> x -> (Vt y == Vv env st y)%Q);
}.
Record fw (b0 : Z) (st : vist) (wl B1 : list Z) : Prop := {
  fw_inv : st_inv st;
  fw_mark : forall x, mk st x <-> x ∈ wl \/ x ∈ B1;
  fw_nd : NoDup (wl ++ B1);
  fw_best : forall x a o, x ∈ start :: B1 -> vd_best (vi_get env st x) = Some a -> o ∈ ea_outs a -> mk st (o.1.1);
  fw_nn : (0 <= vi_delta st)%Q;
  fw_res : (vi_delta st <= MDP_ERRDELTA)%Q -> forall x, x ∈ start :: B1 -> x <> goal -> resid st B1 x;
  fw_backs : vi_backups st = b0 + 1 + Z.of_nat (length B1);
}.

(** The pushes change no value, no action and no delta. *)
Lemma resid_push st B1 x outs wl st' wl' : push_spec env outs st wl st' wl' -> resid st B1 x -> resid st' B1 x.
Proof.
  intros Hp [(a&Vt&H1&H2&H3)]. split. exists a, Vt. destruct (ps_data _ _ _ _ _ _ Hp x) as (_&->&_). split; [done|].
  assert (HV : forall y, Vv env st' y = Vv env st y) by (intros y; unfold Vv; by destruct (ps_data _ _ _ _ _ _ Hp y) as (->&_)).
  rewrite HV. split; [done|]. intros y. rewrite HV, (ps_delta _ _ _ _ _ _ Hp). apply H3.
Qed.
Lemma resid_step st B1 x id : st_inv st -> (0 <= vi_delta st)%Q -> (vi_delta (vi_step st id) <= MDP_ERRDELTA)%Q ->
  x <> id -> id ∉ B1 -> resid st B1 x -> resid (vi_step st id) (id :: B1) x.
Proof.
  intros Hst Hd Hle Hne Hnin [(a&Vt&H1&H2&H3)]. destruct (step_res st id Hst Hd) as (_&Hs). destruct (Hs Hle) as (Hs1&Hs2&Hs3&_).
  destruct (step_frame st id Hst) as (_&_&_&Hx). destruct (Hx x Hne) as [Ev Eb].
  split. exists a, Vt. rewrite Ev, Eb. split_and!; [done..|]. intros y. destruct (H3 y) as (Y1&Y2&Y3).
  destruct (Z.eq_dec y id) as [-> | Hy].
  - specialize (Y3 Hnin ltac:(done)). specialize (Hs2 id). specialize (Hs3 id). split_and!; [lra..|]. set_solver.
  - destruct (Hx y Hy) as [-> _]. split_and!; [lra..|]. intros Hn Hyx. apply Y3; [set_solver|done].
Qed.
Lemma resid_new st B1 id : st_inv st -> (0 <= vi_delta st)%Q -> (vi_delta (vi_step st id) <= MDP_ERRDELTA)%Q ->
  id <> goal -> resid (vi_step st id) B1 id.
Proof.
  intros Hst Hd Hle Hne. destruct (step_res st id Hst Hd) as (_&Hs). destruct (Hs Hle) as (Hs1&Hs2&Hs3&Hs4).
  destruct (Hs4 Hne) as (a&Ha&Hv). destruct (step_frame st id Hst) as (_&_&_&Hx).
  split. exists a, (Vv env st). split_and!; [done..|]. intros y. split_and!; [apply Hs2|apply Hs3|].
  intros _ Hy. destruct (Hx y Hy) as [-> _]. lra.
Qed.

Definition next (st : vist) (id : Z) (wl : list Z) : vist * list Z :=
  vi_push_acts env id (vd_acts (vi_get env (vi_step st id) id)) (vi_step st id) wl.
Lemma mark_push st outs wl st' wl' new : push_spec env outs st wl st' wl' -> wl' = new ++ wl ->
  (forall x, mk st' x <-> mk st x \/ x ∈ new) /\ NoDup new /\ (forall x, x ∈ new -> ~ mk st x).
Proof.
  intros [I D B A M O (n&W&N&X&Y)] E. assert (n = new) as ->.
  { rewrite W in E. by apply app_inv_tail in E. }
  unfold mk. rewrite I. split_and!; [|done|].
  - intros x. rewrite X. destruct (M x) as [E2|E2]; rewrite E2; destruct (decide (vd_iter (vi_get env st x) = vi_iter st)); tauto.
  - intros x Hx. by apply X in Hx as [_ ?].
Qed.

Lemma fw_next b0 st id wl B1 : fw b0 st (id :: wl) B1 -> fw b0 (next st id wl).1 (next st id wl).2 (id :: B1).
Proof.
  intros [Hst Hm Hnd Hb Hd Hr Hbk]. destruct (step_inv env goal Henv st id Hst) as [Hst2 _].
  pose proof (step_push env goal Henv st id wl Hst) as Hp. fold (next st id wl) in Hp.
  destruct (step_frame st id Hst) as (F1&F2&F3&F4). destruct (step_res st id Hst Hd) as (G1&G2).
  destruct (ps_wl _ _ _ _ _ _ Hp) as (new&Wl&_). destruct (mark_push _ _ _ _ _ new Hp Wl) as (M1&M2&M3).
  assert (Hm2 : forall x, mk (vi_step st id) x <-> x ∈ id :: wl \/ x ∈ B1).
  { intros x. rewrite <- Hm. unfold mk. by rewrite F1, F3. }
  simpl in Hnd. apply NoDup_cons in Hnd as [Hnin Hnd].
  assert (HinB : id ∉ B1) by (intros ?; apply Hnin, elem_of_app; by right).
  split.
  - by eapply push_inv.
  - intros x. rewrite M1, Hm2, Wl, elem_of_app, !elem_of_cons. tauto.
  - rewrite Wl, <- app_assoc. apply NoDup_app. split_and!; [done| |].
    + intros x Hx Hin. apply (M3 x Hx). apply Hm2. rewrite elem_of_app, elem_of_cons in Hin. rewrite elem_of_cons. tauto.
    + apply (NoDup_Permutation_proper (id :: wl ++ B1)); [by rewrite Permutation_middle|]. by apply NoDup_cons.
  - intros x a o Hx Ha Ho. destruct (ps_data _ _ _ _ _ _ Hp x) as (_&Eb&_). rewrite Eb in Ha.
    destruct (Z.eq_dec x id) as [-> | Hne].
    + unfold mk. rewrite (ps_it _ _ _ _ _ _ Hp). apply (ps_out _ _ _ _ _ _ Hp). unfold best_outs. by rewrite Ha.
    + apply M1. left. apply Hm2. rewrite <- Hm. destruct (F4 x Hne) as [_ E2]. rewrite E2 in Ha.
      apply (Hb x a o); [set_solver|done..].
  - by rewrite (ps_delta _ _ _ _ _ _ Hp).
  - rewrite (ps_delta _ _ _ _ _ _ Hp). intros Hle x Hx Hne. eapply resid_push; [exact Hp|].
    destruct (Z.eq_dec x id) as [-> | Hxi]; [by apply resid_new|].
    apply resid_step; try done. destruct (G2 Hle) as (G3&_). apply Hr; [lra|set_solver|done].
  - rewrite (ps_back _ _ _ _ _ _ Hp), F2, Hbk. simpl. lia.
Qed.
(** The first element of the work list is the start, which is not marked. *)
Lemma fw_first st : st_inv st -> (0 <= vi_delta st)%Q -> (forall x, ~ mk st x) ->
  fw (vi_backups st) (next st start []).1 (next st start []).2 [].
Proof.
  intros Hst Hd Hm. destruct (step_inv env goal Henv st start Hst) as [Hst2 _].
  pose proof (step_push env goal Henv st start [] Hst) as Hp. fold (next st start []) in Hp.
  destruct (step_frame st start Hst) as (F1&F2&F3&F4). destruct (step_res st start Hst Hd) as (G1&G2).
  destruct (ps_wl _ _ _ _ _ _ Hp) as (new&Wl&_). destruct (mark_push _ _ _ _ _ new Hp Wl) as (M1&M2&M3).
  assert (Hm2 : forall x, ~ mk (vi_step st start) x).
  { intros x. specialize (Hm x). unfold mk in *. by rewrite F1, F3. }
  rewrite app_nil_r in Wl. split.
  - by eapply push_inv.
  - intros x. rewrite M1, Wl. specialize (Hm2 x). rewrite elem_of_nil. tauto.
  - by rewrite Wl, app_nil_r.
  - intros x a o Hx Ha Ho. apply elem_of_list_singleton in Hx as ->.
    destruct (ps_data _ _ _ _ _ _ Hp start) as (_&Eb&_). rewrite Eb in Ha.
    unfold mk. rewrite (ps_it _ _ _ _ _ _ Hp). apply (ps_out _ _ _ _ _ _ Hp). unfold best_outs. by rewrite Ha.
  - by rewrite (ps_delta _ _ _ _ _ _ Hp).
  - rewrite (ps_delta _ _ _ _ _ _ Hp). intros Hle x Hx Hne. apply elem_of_list_singleton in Hx as ->.
    eapply resid_push; [exact Hp|]. by apply resid_new.
  - rewrite (ps_back _ _ _ _ _ _ Hp), F2. simpl. lia.
Qed.
Lemma forward_fw b0 fuel : forall st wl B1 st', fw b0 st wl B1 -> vi_forward fuel env goal st wl = Ok st' ->
  exists B, fw b0 st' [] B /\ vi_iter st' = vi_iter st.
Proof.
  induction fuel as [|fuel IH]; intros st wl B1 st' Hf; simpl; [done|].
  destruct wl as [|id wl]; [intros [= <-]; by exists B1|]. fold (vi_step st id). fold (next st id wl).
  intros H. apply (IH _ _ (id :: B1)) in H as (B&H1&H2); [|by apply fw_next]. exists B. split; [done|].
  rewrite H2. pose proof (fw_inv _ _ _ _ Hf) as Hst. pose proof (step_push env goal Henv st id wl Hst) as Hp.
  fold (next st id wl) in Hp. rewrite (ps_it _ _ _ _ _ _ Hp). apply step_frame, Hst.
Qed.
Lemma forward_fw_start fuel st st' : st_inv st -> (0 <= vi_delta st)%Q -> (forall x, ~ mk st x) ->
  vi_forward fuel env goal st [start] = Ok st' ->
  exists B, fw (vi_backups st) st' [] B /\ vi_iter st' = vi_iter st.
Proof.
  intros Hst Hd Hm. destruct fuel as [|fuel]; simpl; [done|]. fold (vi_step st start). fold (next st start []).
  intros H. apply (forward_fw (vi_backups st) _ _ _ []) in H as (B&H1&H2); [|by apply fw_first].
  exists B. split; [done|]. rewrite H2. pose proof (step_push env goal Henv st start [] Hst) as Hp.
  fold (next st start []) in Hp. rewrite (ps_it _ _ _ _ _ _ Hp). apply step_frame, Hst.
Qed.

(** * Termination of an iteration *)
Section fin.
Context (D : list Z) (HD : closed_states env start D).
Lemma best_closed st x a o : st_inv st -> x ∈ D -> vd_best (vi_get env st x) = Some a -> o ∈ ea_outs a -> o.1.1 ∈ D.
Proof.
  intros Hst Hx Ha Ho. apply (li_best _ _ _ Hst) in Ha. destruct (li_acts _ _ _ Hst x) as [E|E]; rewrite E in Ha;
    [by apply elem_of_nil in Ha|]. by apply (proj2 HD x a o).
Qed.
Lemma next_closed st id wl : st_inv st -> id ∈ D -> (forall x, x ∈ wl -> x ∈ D) -> forall x, x ∈ (next st id wl).2 -> x ∈ D.
Proof.
  intros Hst Hid Hwl x Hx. pose proof (step_push env goal Henv st id wl Hst) as Hp. fold (next st id wl) in Hp.
  destruct (ps_wl _ _ _ _ _ _ Hp) as (new&Wl&_&_&Y). rewrite Wl in Hx. apply elem_of_app in Hx as [Hx|Hx]; [|by apply Hwl].
  destruct (Y x Hx) as (o&Ho&<-). destruct (step_inv env goal Henv st id Hst) as [Hst2 _].
  unfold best_outs in Ho. destruct (vd_best (vi_get env (vi_step st id) id)) as [a|] eqn:Ea; [|by apply elem_of_nil in Ho].
  by eapply best_closed.
Qed.
Lemma forward_total b0 fuel : forall st wl B1, fw b0 st wl B1 -> (forall x, x ∈ wl ++ B1 -> x ∈ D) ->
  (length D + 1 <= fuel + length B1)%nat ->
  exists st' B, vi_forward fuel env goal st wl = Ok st' /\ fw b0 st' [] B /\ (length B <= length D)%nat.
Proof.
  induction fuel as [|fuel IH]; intros st wl B1 Hf Hin Hfu.
  - exfalso. assert (length B1 <= length D)%nat; [|lia].
    apply submseteq_length, NoDup_submseteq; [|intros x Hx; apply Hin; set_solver].
    pose proof (fw_nd _ _ _ _ Hf) as Hn. apply NoDup_app in Hn. tauto.
  - simpl. destruct wl as [|id wl].
    + exists st, B1. split_and!; [done..|]. apply submseteq_length, NoDup_submseteq; [apply (fw_nd _ _ _ _ Hf)|].
      intros x Hx. apply Hin. set_solver.
    + fold (vi_step st id). fold (next st id wl). apply (IH _ _ (id :: B1)).
      * by apply fw_next.
      * intros x [Hx|Hx]%elem_of_app; [|apply Hin; set_solver].
        apply (next_closed st id wl); [by apply (fw_inv _ _ _ _ Hf)|apply Hin; set_solver| |done]. intros y Hy. apply Hin. set_solver.
      * simpl. lia.
Qed.
Lemma forward_total_start st : st_inv st -> (0 <= vi_delta st)%Q -> (forall x, ~ mk st x) ->
  exists st' B, vi_forward (length D + 2) env goal st [start] = Ok st' /\ fw (vi_backups st) st' [] B /\ (length B <= length D)%nat.
Proof.
  intros Hst Hd Hm. replace (length D + 2)%nat with (S (length D + 1)) by lia. simpl.
  fold (vi_step st start). fold (next st start []).
  apply (forward_total _ _ _ _ []); [by apply fw_first| |simpl; lia].
  intros x. rewrite app_nil_r. apply next_closed; [done|apply HD|]. intros y Hy. by apply elem_of_nil in Hy.
Qed.
End fin.
End iter.
