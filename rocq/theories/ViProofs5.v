(** The value-iteration planner: every work list ends; the converged policy. *)
From Verif Require Import Base MdpModel MdpSpec EvalModel EvalSpec EvalProofs EvalProofs2 EvalProofs3 EvalProofs4 ViModel ViSpec ViProofs ViProofs2 ViProofs3 ViProofs4.
From Coq Require Import Lqa.
Local Open Scope Z_scope.

Section term.
Context (env : vienv) (goal : Z) (Henv : env_ok 0 env) (Hadm : admissible env goal).
Notation st_inv := (st_inv env goal).
Notation vi_step := (vi_step env goal).
Notation mk := (mk env).
Notation next := (next env goal).
Context (start : Z) (D : list Z) (HD : closed_states env start D).

(** The states that are not yet marked in this pass. *)
Definition unm (st : vist) : list Z := filter (fun x => vd_iter (vi_get env st x) <> vi_iter st) (remove_dups D).
Lemma unm_bound st : (length (unm st) <= length D)%nat.
Proof.
  unfold unm. etrans; [apply filter_length|]. apply submseteq_length, NoDup_submseteq; [apply NoDup_remove_dups|].
  intros x. by rewrite elem_of_remove_dups.
Qed.
Lemma push_measure outs st wl st' wl' : push_spec env outs st wl st' wl' -> (forall o, o ∈ outs -> o.1.1 ∈ D) ->
  (length wl' + length (unm st') <= length wl + length (unm st))%nat /\ (forall x, x ∈ wl' -> x ∈ wl \/ x ∈ D).
Proof.
  intros [I Dl B A M O (n&W&N&X&Y)] Ho. split.
  - rewrite W, app_length.
    assert (Hs : (length (n ++ unm st') <= length (unm st))%nat); [|rewrite app_length in Hs; lia].
    apply submseteq_length, NoDup_submseteq.
    + apply NoDup_app. split_and!; [done| |apply NoDup_filter, NoDup_remove_dups].
      intros x Hx [Hn _]%elem_of_list_filter. apply X in Hx as [E _]. rewrite I in Hn. done.
    + intros x [Hx|Hx]%elem_of_app.
      * apply elem_of_list_filter. destruct (Y x Hx) as (o&Hoo&<-). split; [by apply X in Hx as [_ ?]|].
        apply elem_of_remove_dups. auto.
      * apply elem_of_list_filter in Hx as [Hn Hx]. apply elem_of_list_filter. split; [|done].
        rewrite I in Hn. destruct (M x) as [E|E]; rewrite E in Hn; done.
  - intros x Hx. rewrite W in Hx. apply elem_of_app in Hx as [Hx|Hx]; [|by left]. right.
    destruct (Y x Hx) as (o&Hoo&<-). auto.
Qed.
Lemma step_unm st id : st_inv st -> unm (vi_step st id) = unm st.
Proof.
  intros Hst. destruct (step_frame env goal st id Hst) as (F1&_&F3&_). unfold unm.
  rewrite F1. apply list_filter_iff. intros x. by rewrite F3.
Qed.
Lemma next_measure st id wl : st_inv st -> id ∈ D -> (forall x, x ∈ wl -> x ∈ D) ->
  (length (next st id wl).2 + length (unm (next st id wl).1) <= length wl + length (unm st))%nat /\
  (forall x, x ∈ (next st id wl).2 -> x ∈ D).
Proof.
  intros Hst Hid Hwl. pose proof (step_push env goal Henv st id wl Hst) as Hp. fold (next st id wl) in Hp.
  destruct (step_inv env goal Henv st id Hst) as [Hst2 _].
  apply push_measure in Hp as [H1 H2].
  - rewrite step_unm in H1 by done. split; [done|]. intros x Hx. destruct (H2 x Hx); auto.
  - intros o Ho. unfold best_outs in Ho.
    destruct (vd_best (vi_get env (vi_step st id) id)) as [a|] eqn:Ea; [|by apply elem_of_nil in Ho].
    by eapply best_closed.
Qed.
Lemma forward_total fuel : forall st wl, st_inv st -> (forall x, x ∈ wl -> x ∈ D) ->
  (length wl + length (unm st) < fuel)%nat ->
  exists st', vi_forward fuel env goal st wl = Ok st' /\ vi_iter st' = vi_iter st /\
    vi_backups st <= vi_backups st' <= vi_backups st + Z.of_nat (length wl + length (unm st)).
Proof.
  induction fuel as [|fuel IH]; intros st wl Hst Hwl Hf; [lia|]. simpl.
  destruct wl as [|id wl]; [exists st; split_and!; [done..|lia|lia]|].
  fold (vi_step st id). fold (next st id wl).
  destruct (next_measure st id wl Hst) as [H1 H2]; [set_solver..|]. simpl in Hf.
  destruct (IH (next st id wl).1 (next st id wl).2) as (st'&H3&H4&H5); [by apply next_inv|done|lia|].
  exists st'. split; [done|]. rewrite H4, next_it by done. split; [done|].
  pose proof (step_push env goal Henv st id wl Hst) as Hp. fold (next st id wl) in Hp.
  rewrite (ps_back _ _ _ _ _ _ Hp) in H5. destruct (step_frame env goal st id Hst) as (_&F2&_&_). rewrite F2 in H5.
  simpl. lia.
Qed.
Lemma iterate_total clock : forall st, st_inv st ->
  exists st' b, vi_iterate (length D + 2) env start goal clock st = Ok (st', b) /\
    vi_backups st <= vi_backups st' <= vi_backups st + Z.of_nat (length clock * (length D + 1)).
Proof.
  induction clock as [|[] clock IH]; intros st Hst; cbn [vi_iterate].
  - exists st, true. split; [done|]. simpl. lia.
  - destruct (qltb MDP_ERRDELTA (vi_delta st)); [|exists st, false; split; [done|]; lia].
    fold (bump st). assert (Hb : st_inv (bump st)) by (by apply (st_inv_mdp env goal st)).
    pose proof (unm_bound (bump st)) as Hu.
    destruct (forward_total (length D + 2) (bump st) [start]) as (st1&H1&_&H2).
    + done.
    + intros x ->%elem_of_list_singleton. apply HD.
    + simpl. lia.
    + rewrite H1. cbn [obind]. destruct (IH st1) as (st'&b&H3&H4); [by eapply forward_inv|].
      exists st', b. split; [done|]. simpl in H2 |- *. lia.
  - exists st, true. split; [done|]. lia.
Qed.
Lemma policy_total fuel : forall st wl pol, st_inv st -> (forall x, x ∈ wl -> x ∈ D) ->
  (length wl + length (unm st) < fuel)%nat -> exists r, vi_policy fuel env goal st wl pol = Ok r.
Proof.
  induction fuel as [|fuel IH]; intros st wl pol Hst Hwl Hf; [lia|]. simpl.
  destruct wl as [|id wl]; [by eexists|]. simpl in Hf.
  destruct (id =? goal); [apply IH; [done|set_solver|lia]|].
  destruct (vd_best (vi_get env st id)) as [a|] eqn:Ea; [|apply IH; [done|set_solver|lia]].
  pose proof (vi_push_spec env (ea_outs a) st wl) as Hp. pose proof Hp as Hp2. apply push_measure in Hp2 as [H1 H2].
  - apply IH; [by eapply push_inv| |lia]. intros x Hx. destruct (H2 x Hx); [set_solver|done].
  - intros o Ho. eapply (best_closed env goal start D HD st id); [done|set_solver|done..].
Qed.
Lemma print_total st : st_inv st -> exists r, vi_print_policy (length D + 2) env start goal st = Ok r.
Proof.
  intros Hst. unfold vi_print_policy. cbv zeta. set (st1 := mkVI (vi_mdp st) (vi_iter st + 1) (vi_delta st) (vi_backups st)).
  set (d := mkVD _ _ _ _). set (st2 := vi_put st1 start d).
  apply policy_total.
  - apply (st_inv_data env goal st); [|done]. intros x. unfold st2. rewrite vi_put_get.
    by destruct (Z.eqb_spec x start) as [-> | _].
  - intros x ->%elem_of_list_singleton. apply HD.
  - pose proof (unm_bound st2). simpl. lia.
Qed.
End term.

(** * The policy after convergence *)
Section conv.
Context (env : vienv) (goal : Z) (Henv1 : env_ok 1 env) (Hadm : admissible env goal).
Lemma env_ok_weaken : env_ok 0 env.
Proof.
  intros x a Ha. destruct (Henv1 x a Ha) as [H1 H2]. split; [|done]. intros o Ho. destruct (H1 o Ho). split; [done|lia].
Qed.
Lemma conv_policy start fuel st st' pol : st_inv env goal st -> marks_le env st -> done_iter env goal start st ->
  (vi_delta st <= MDP_ERRDELTA)%Q -> vi_print_policy fuel env start goal st = Ok (st', pol) ->
  wf_policy 1 pol /\ full_policy pol goal /\ start ∈ es_id <$> pol /\
  (forall s a, s ∈ pol -> es_acts s = [a] -> a ∈ ve_acts env (es_id s)) /\
  (forall s a, s ∈ pol -> es_id s <> goal -> es_acts s = [a] ->
     (Tf (ea_outs a) (Vv env st) <= Vv env st (es_id s) + MDP_ERRDELTA)%Q).
Proof.
  intros Hst Hm (b0&B&[F1 F2 F3 F4 F5 F6 F7]) Hd H.
  apply (print_policy_spec env goal env_ok_weaken Hadm (fun x => x ∈ start :: B)) in H as (P&Hpol&Hnd&Hs&HS&Hcl); [|done|set_solver|].
  2:{ intros x a o Hx Hne Ha Ho. specialize (F4 x a o Hx Ha Ho). apply F2 in F4. set_solver. }
  specialize (F6 Hd).
  assert (Hids : es_id <$> pol = P).
  { rewrite Hpol, <- list_fmap_compose. rewrite <- (list_fmap_id P) at 2. apply list_fmap_ext. done. }
  assert (Hent : forall s, s ∈ pol -> es_id s ∈ P /\ s = pol_entry env goal st (es_id s)).
  { intros s Hs2. rewrite Hpol in Hs2. apply elem_of_list_fmap in Hs2 as (x&->&Hx). done. }
  assert (Hact : forall s a, s ∈ pol -> es_acts s = [a] -> es_id s <> goal /\ vd_best (vi_get env st (es_id s)) = Some a).
  { intros s a Hs2 Ha. destruct (Hent s Hs2) as [_ E]. rewrite E in Ha. unfold pol_entry in Ha. simpl in Ha.
    destruct (Z.eqb_spec (es_id s) goal); [done|]. destruct (vd_best (vi_get env st (es_id s))); [|done]. by injection Ha as ->. }
  assert (Henvact : forall s a, s ∈ pol -> es_acts s = [a] -> a ∈ ve_acts env (es_id s)).
  { intros s a Hs2 Ha. destruct (Hact s a Hs2 Ha) as [_ Hb]. apply (li_best _ _ _ Hst) in Hb.
    destruct (li_acts _ _ _ Hst (es_id s)) as [E|E]; rewrite E in Hb; [by apply elem_of_nil in Hb|done]. }
  assert (Hfull : full_policy pol goal).
  { intros s Hs2 Hne. destruct (Hent s Hs2) as [HP E]. rewrite E. unfold pol_entry. simpl.
    rewrite (proj2 (Z.eqb_neq (es_id s) goal) Hne).
    destruct (F6 (es_id s) (HS _ HP) Hne) as [(a&Vt&->&_)]. done. }
  split_and!; [split| | | |].
  - by rewrite Hids.
  - intros s Hs2. destruct (es_acts s) as [|a l] eqn:Ea; [by left|]. right. exists a.
    assert (El : l = []).
    { destruct (Hent s Hs2) as [_ E]. rewrite E in Ea. unfold pol_entry in Ea. simpl in Ea.
      destruct (es_id s =? goal); [done|]. destruct (vd_best (vi_get env st (es_id s))); [|done]. by injection Ea as _ <-. }
    subst l. destruct (Hact s a Hs2 Ea) as [Hne Hb]. split_and!; [done|by apply (Henv1 (es_id s)), Henvact|].
    intros o Ho. rewrite Hids. eapply Hcl; [by apply Hent|done..].
  - done.
  - by rewrite Hids.
  - done.
  - intros s a Hs2 Hne Ha. destruct (Hent s Hs2) as [HP _]. destruct (Hact s a Hs2 Ha) as [_ Hb].
    destruct (F6 (es_id s) (HS _ HP) Hne) as [(a'&Vt&Hb'&Hv&Hy)]. rewrite Hb in Hb'. injection Hb' as <-.
    assert (Tf (ea_outs a) (Vv env st) <= Tf (ea_outs a) Vt + vi_delta st)%Q.
    { apply (Tf_shift 1); [by apply (Henv1 (es_id s)), Henvact|]. intros y. apply Hy. }
    lra.
Qed.
End conv.
