(** The value-iteration planner: the loop converges when the goal can be reached from every state. *)
From Verif Require Import Base MdpModel MdpSpec EvalModel EvalSpec EvalProofs EvalProofs2 EvalProofs3 EvalProofs4 ViModel ViSpec ViProofs ViProofs2 ViProofs3 ViProofs4 ViProofs5.
From Coq Require Import Lqa.
Local Open Scope Z_scope.

(** * A policy of the environment that reaches the goal from everywhere *)
Section pick.
Context (env : vienv) (goal : Z) (Henv : env_ok 1 env) (start : Z) (D : list Z) (HD : closed_states env start D).
Context (Hreach : forall x, x ∈ D -> rtc (env_step env) x goal).

Fixpoint rE (n : nat) (x : Z) : bool :=
  if x =? goal then true else
  match n with
  | O => false
  | S n => existsb (fun a => existsb (fun o => rE n (o.1.1)) (ea_outs a)) (ve_acts env x)
  end.
Fixpoint pick (n : nat) (x : Z) : option eact :=
  match n with
  | O => None
  | S n => if rE n x then pick n x
           else snd <$> list_find (fun a => existsb (fun o => rE n (o.1.1)) (ea_outs a) = true) (ve_acts env x)
  end.
Lemma rE_goal n : rE n goal = true.
Proof. destruct n; simpl; by rewrite Z.eqb_refl. Qed.
Lemma rE_S n x : x <> goal -> rE (S n) x = existsb (fun a => existsb (fun o => rE n (o.1.1)) (ea_outs a)) (ve_acts env x).
Proof. intros H. simpl. by rewrite (proj2 (Z.eqb_neq x goal) H). Qed.
Lemma rE_mono n : forall x, rE n x = true -> rE (S n) x = true.
Proof.
  induction n as [|n IH]; intros x; destruct (Z.eq_dec x goal) as [-> | Hne]; intros H; try apply rE_goal.
  - simpl in H. by rewrite (proj2 (Z.eqb_neq x goal) Hne) in H.
  - rewrite rE_S in H |- * by done. apply existsb_exists in H as (a&Ha&H). apply existsb_exists in H as (o&Ho&H).
    apply existsb_exists. exists a. split; [done|]. apply existsb_exists. exists o. split; [done|]. by apply IH.
Qed.
Lemma rE_le n m x : (n <= m)%nat -> rE n x = true -> rE m x = true.
Proof. intros H. induction H; auto using rE_mono. Qed.
Lemma pick_stable n m x : (n <= m)%nat -> rE n x = true -> pick m x = pick n x.
Proof.
  intros H Hr. induction H as [|m H IH]; [done|]. simpl. by rewrite (rE_le n m x H Hr).
Qed.
Lemma pick_step n : forall x, rE n x = true -> x <> goal ->
  exists a o m, pick n x = Some a /\ a ∈ ve_acts env x /\ o ∈ ea_outs a /\ (m < n)%nat /\ rE m (o.1.1) = true.
Proof.
  induction n as [|n IH]; intros x Hr Hne.
  - simpl in Hr. by rewrite (proj2 (Z.eqb_neq x goal) Hne) in Hr.
  - simpl. destruct (rE n x) eqn:E.
    + destruct (IH x E Hne) as (a&o&m&?&?&?&?&?). exists a, o, m. split_and!; auto.
    + rewrite rE_S in Hr by done. apply existsb_exists in Hr as (a&Ha&Hr). rewrite <- elem_of_list_In in Ha.
      destruct (list_find_elem_of (fun a => existsb (fun o => rE n (o.1.1)) (ea_outs a) = true) _ a Ha Hr) as ([i b]&Hf).
      rewrite Hf. apply list_find_Some in Hf as (Hi&Hb&_). apply existsb_exists in Hb as (o&Ho&Hb).
      exists b, o, n. split_and!; [done|by eapply elem_of_list_lookup_2|by apply elem_of_list_In|lia|done].
Qed.
Lemma rE_all : exists N, forall x, x ∈ D -> rE N x = true.
Proof.
  assert (H1 : forall x, rtc (env_step env) x goal -> exists n, rE n x = true).
  { intros x Hx. refine (rtc_ind_l (fun x => exists n, rE n x = true) goal _ _ x Hx).
    - exists 0%nat. apply rE_goal.
    - intros y z (a&o&Ha&Ho&<-) _ [n Hn]. destruct (Z.eq_dec y goal) as [-> | Hne]; [exists 0%nat; apply rE_goal|].
      exists (S n). rewrite rE_S by done. apply existsb_exists. exists a. split; [by apply elem_of_list_In|].
      apply existsb_exists. exists o. split; [by apply elem_of_list_In|done]. }
  assert (H : forall l : list Z, (forall x, x ∈ l -> x ∈ D) -> exists N, forall x, x ∈ l -> rE N x = true).
  { induction l as [|s l IH]; intros Hl; [exists 0%nat; intros s Hs; by apply elem_of_nil in Hs|].
    destruct (H1 s) as [n Hn]; [apply Hreach, Hl; set_solver|]. destruct IH as [N HN]; [intros; apply Hl; set_solver|].
    exists (max n N). intros t [->|Ht]%elem_of_cons; [apply (rE_le n); [lia|done]|apply (rE_le N); [lia|auto]]. }
  by apply H.
Qed.
Lemma bound_env : exists (U : Z -> Q) (A : Z -> option eact), (forall x, (0 <= U x)%Q) /\
  forall x, x ∈ D -> x <> goal -> exists a, A x = Some a /\ a ∈ ve_acts env x /\ (Tf (ea_outs a) U <= U x)%Q.
Proof.
  destruct rE_all as [N HN].
  set (ent := fun x => mkES x (if x =? goal then [] else match pick N x with Some a => [a] | None => [] end)).
  set (pol := ent <$> remove_dups D).
  assert (Hids : es_id <$> pol = remove_dups D).
  { unfold pol. rewrite <- list_fmap_compose. rewrite <- (list_fmap_id (remove_dups D)) at 2. by apply list_fmap_ext. }
  assert (Hent : forall s, s ∈ pol -> es_id s ∈ D /\ s = ent (es_id s)).
  { intros s Hs. apply elem_of_list_fmap in Hs as (x&->&Hx). rewrite elem_of_remove_dups in Hx. done. }
  assert (Hat : forall x, x ∈ D -> ent x ∈ pol).
  { intros x Hx. apply elem_of_list_fmap. exists x. by rewrite elem_of_remove_dups. }
  assert (Hacts : forall x, x ∈ D -> x <> goal -> exists a, pick N x = Some a /\ a ∈ ve_acts env x /\ es_acts (ent x) = [a]).
  { intros x Hx Hne. destruct (pick_step N x (HN x Hx) Hne) as (a&o&m&Ha&Hin&_). exists a. split_and!; [done..|].
    unfold ent. simpl. by rewrite (proj2 (Z.eqb_neq x goal) Hne), Ha. }
  assert (Hwf : wf_policy 1 pol).
  { split; [rewrite Hids; apply NoDup_remove_dups|]. intros s Hs. destruct (Hent s Hs) as [Hx E].
    destruct (Z.eq_dec (es_id s) goal) as [Hg|Hne]; [left; rewrite E; unfold ent; simpl; by rewrite Hg, Z.eqb_refl|].
    destruct (Hacts (es_id s) Hx Hne) as (a&_&Ha&Ea). right. exists a. rewrite E. split_and!; [done|by apply (Henv (es_id s))|].
    intros o Ho. rewrite Hids. apply elem_of_remove_dups. by apply (proj2 HD (es_id s) a o). }
  assert (Hfull : full_policy pol goal).
  { intros s Hs Hne. destruct (Hent s Hs) as [Hx E]. destruct (Hacts (es_id s) Hx Hne) as (a&_&_&Ea). rewrite E, Ea. done. }
  assert (Hr : forall n, (n <= N)%nat -> forall x, x ∈ D -> rE n x = true -> rtc (id_step pol) x goal).
  { intros n. induction (lt_wf n) as [n _ IH]. intros HnN x Hx Hr. destruct (Z.eq_dec x goal) as [-> | Hne]; [done|].
    destruct (pick_step n x Hr Hne) as (a&o&m&Ha&Hin&Ho&Hm&Hrm).
    apply rtc_l with (o.1.1).
    - exists a, o. split_and!; [|done..]. exists (ent x). split_and!; [by apply Hat|done|].
      unfold ent. simpl. rewrite (proj2 (Z.eqb_neq x goal) Hne), (pick_stable n N x HnN Hr). by rewrite Ha.
    - apply (IH m Hm); [lia| |done]. by apply (proj2 HD x a o). }
  destruct (bound_exists pol goal Hwf Hfull) as (U&HU0&HU).
  { intros s Hs. destruct (Hent s Hs) as [Hx _]. apply (Hr N); [lia|done|auto]. }
  exists U, (pick N). split; [done|]. intros x Hx Hne. destruct (Hacts x Hx Hne) as (a&Ha&Hin&Ea).
  exists a. split_and!; [done..|]. apply (HU (ent x) a); [by apply Hat|done..].
Qed.
#[local] Instance Q_eq_dec' : EqDecision Q. Proof. solve_decision. Defined.
#[local] Instance eact_eq_dec : EqDecision eact. Proof. solve_decision. Defined.
(** Values below the optimum are below this bound. *)
Lemma below_bound (U : Z -> Q) (A : Z -> option eact) : (forall x, (0 <= U x)%Q) ->
  (forall x, x ∈ D -> x <> goal -> exists a, A x = Some a /\ a ∈ ve_acts env x /\ (Tf (ea_outs a) U <= U x)%Q) ->
  forall x v, x ∈ D -> below_optimum env goal x v -> (v <= U x)%Q.
Proof.
  intros HU0 HU.
  set (s := fun l : list Z => match l with [] => 0%nat | x :: _ =>
     match A x with Some a => match list_find (fun b => b = a) (ve_acts env x) with Some (i, _) => i | None => 0%nat end | None => 0%nat end end).
  assert (Hs : forall n h x, x ∈ D -> (strategy_cost env goal s n h x <= U x)%Q).
  { induction n as [|n IH]; intros h x Hx; [apply HU0|]. simpl. destruct (Z.eqb_spec x goal) as [Eg|Hne]; [apply HU0|].
    destruct (HU x Hx Hne) as (a&Ea&Ha&Hle). rewrite Ea.
    destruct (list_find_elem_of (fun b => b = a) _ a Ha eq_refl) as ([i b]&Hf). rewrite Hf.
    apply list_find_Some in Hf as (Hi&->&_). rewrite Hi. eapply Qle_trans; [|exact Hle]. unfold Tf.
    apply expect_mono; [by eauto using outs_ok_nonneg|]. intros o Ho.
    specialize (IH (x :: h) (o.1.1) ltac:(by apply (proj2 HD x a o))). lra. }
  intros x v Hx Hb. apply Qnot_lt_le. intros Hlt.
  destruct (Hb s ((v - U x) / 2)%Q) as [n Hn]; [apply Qlt_shift_div_l; lra|].
  specialize (Hs n [] x Hx). assert ((v - U x) / 2 == (v - U x) * (1 # 2))%Q by field. lra.
Qed.
End pick.

(** * Sums over the states *)
Lemma Qsum_le (f g : Z -> Q) (l : list Z) : (forall x, x ∈ l -> (f x <= g x)%Q) -> (Qsum (f <$> l) <= Qsum (g <$> l))%Q.
Proof.
  induction l as [|x l IH]; intros H; [simpl; lra|]. rewrite !fmap_cons. cbn [Qsum]. pose proof (H x ltac:(set_solver)). specialize (IH ltac:(intros; apply H; set_solver)). lra.
Qed.
Lemma Qsum_lt (f g : Z -> Q) (l : list Z) z d : (forall x, x ∈ l -> (f x <= g x)%Q) -> z ∈ l -> (f z + d <= g z)%Q -> (0 <= d)%Q ->
  (Qsum (f <$> l) + d <= Qsum (g <$> l))%Q.
Proof.
  intros H Hz Hd Hd0. induction l as [|x l IH]; [by apply elem_of_nil in Hz|]. rewrite !fmap_cons. cbn [Qsum].
  pose proof (H x ltac:(set_solver)). apply elem_of_cons in Hz as [<- | Hz].
  - pose proof (Qsum_le f g l ltac:(intros; apply H; set_solver)). lra.
  - specialize (IH ltac:(intros; apply H; set_solver) Hz). lra.
Qed.

Section conv6.
Context (env : vienv) (goal : Z) (Henv : env_ok 0 env) (Hadm : admissible env goal).
Context (start : Z) (D : list Z) (HD : closed_states env start D).
Context (Hacts : forall x, x ∈ D -> x <> goal -> ve_acts env x <> []).
Notation st_inv := (st_inv env goal).
Notation vi_step := (vi_step env goal).
Notation next := (next env goal).

(** No value is above the backed-up value of any action. *)
Definition mono (st : vist) : Prop := forall x a, x <> goal -> a ∈ ve_acts env x -> (Vv env st x <= Tf (ea_outs a) (Vv env st))%Q.
Definition phi (st : vist) (x : Z) : Q :=
  (Vv env st x + if x =? goal then 0 else match vd_best (vi_get env st x) with Some _ => 1 # 100 | None => 0 end)%Q.
Definition Phi (st : vist) : Q := Qsum (phi st <$> D).

Lemma step_new st id : st_inv st -> id ∈ D -> id <> goal -> exists a,
  a ∈ ve_acts env id /\ vd_best (vi_get env (vi_step st id) id) = Some a /\
  (Vv env (vi_step st id) id == Tf (ea_outs a) (Vv env st))%Q /\
  vi_delta (vi_step st id) = match vd_best (vi_get env st id) with
     | None => inject_Z INFINITECOST
     | Some _ => let e := qabs (Vv env st id - Vv env (vi_step st id) id)%Q in if qltb (vi_delta st) e then e else vi_delta st end.
Proof.
  intros Hst Hin Hne. destruct (set_actions_spec env goal st id Hst) as (H1&H2&H3&H4&H5&H6).
  unfold ViProofs2.vi_step. set (s1 := vi_set_actions env st id) in *.
  assert (HVs : forall x, Vv env s1 x = Vv env st x) by (intros x; unfold Vv; by destruct (H6 x) as (->&_)).
  assert (Ev : vi_get env (vi_backup env goal s1 id) id =
     let r := vi_min env s1 (vd_acts (vi_get env s1 id)) (inject_Z INFINITECOST) None in
     mkVD (r.1) (vd_iter (vi_get env s1 id)) (r.2) (vd_acts (vi_get env s1 id))).
  { rewrite backup_get, Z.eqb_refl, (proj2 (Z.eqb_neq id goal) Hne). done. }
  pose proof (vi_min_spec env s1 (vd_acts (vi_get env s1 id)) (inject_Z INFINITECOST) None I) as Hm. cbv zeta in Hm, Ev.
  set (r := vi_min env s1 (vd_acts (vi_get env s1 id)) (inject_Z INFINITECOST) None) in *.
  destruct (r.2) as [a|] eqn:Er.
  2:{ destruct Hm as (E&_). rewrite H2 in E. by destruct (Hacts id Hin Hne). }
  destruct Hm as ([Ha|?]&Hq&_); [|done]. rewrite H2 in Ha. exists a. unfold Vv. rewrite Ev. simpl. split_and!; [done..| |].
  - rewrite Hq. assert (Hext : forall outs, (expect outs (fun c y => inject_Z c + Vv env s1 y) == expect outs (fun c y => inject_Z c + Vv env st y))%Q).
    { induction outs as [|o outs IHo]; simpl; [lra|]. rewrite IHo, HVs. lra. }
    apply Hext.
  - unfold vi_backup. rewrite (proj2 (Z.eqb_neq id goal) Hne). fold r. simpl. destruct (H6 id) as (E1&_&E2).
    rewrite E1, E2, H4. done.
Qed.
Lemma step_mono st id : st_inv st -> mono st -> id ∈ D ->
  mono (vi_step st id) /\ (forall x, Vv env st x <= Vv env (vi_step st id) x)%Q.
Proof.
  intros Hst Hm Hin. destruct (step_frame env goal st id Hst) as (_&_&_&Hx).
  destruct (step_inv env goal Henv st id Hst) as [Hst2 _].
  assert (Hle : forall x, (Vv env st x <= Vv env (vi_step st id) x)%Q).
  { intros x. destruct (Z.eq_dec x id) as [-> | Hn]; [|destruct (Hx x Hn) as [-> _]; lra].
    destruct (Z.eq_dec id goal) as [-> | Hne].
    - pose proof (goal_zero env goal st Hst). pose proof (goal_zero env goal _ Hst2). lra.
    - destruct (step_new st id Hst Hin Hne) as (a&Ha&_&->&_). by apply Hm. }
  split; [|done]. intros x a Hne Ha.
  assert (Htf : (Tf (ea_outs a) (Vv env st) <= Tf (ea_outs a) (Vv env (vi_step st id)))%Q) by (apply (Tf_mono 0); [by eapply Henv|done]).
  destruct (Z.eq_dec x id) as [-> | Hn].
  - assert (Hopt : (Vv env (vi_step st id) id <= Tf (ea_outs a) (Vv env st))%Q); [|lra].
    destruct (set_actions_spec env goal st id Hst) as (H1&H2&H3&H4&H5&H6).
    unfold ViProofs2.vi_step. set (s1 := vi_set_actions env st id) in *.
    assert (HVs : forall x, Vv env s1 x = Vv env st x) by (intros x; unfold Vv; by destruct (H6 x) as (->&_)).
    pose proof (vi_min_spec env s1 (vd_acts (vi_get env s1 id)) (inject_Z INFINITECOST) None I) as Hmn. cbv zeta in Hmn.
    assert (Ev : vi_get env (vi_backup env goal s1 id) id =
       let r := vi_min env s1 (vd_acts (vi_get env s1 id)) (inject_Z INFINITECOST) None in
       mkVD (r.1) (vd_iter (vi_get env s1 id)) (r.2) (vd_acts (vi_get env s1 id))).
    { rewrite backup_get, Z.eqb_refl, (proj2 (Z.eqb_neq id goal) Hne). done. }
    cbv zeta in Ev. unfold Vv at 1. rewrite Ev. simpl.
    destruct (vi_min env s1 (vd_acts (vi_get env s1 id)) (inject_Z INFINITECOST) None) as [q [b|]]; simpl in *.
    + destruct Hmn as (_&_&Hall). specialize (Hall a ltac:(left; by rewrite H2)).
      assert (Hext : forall outs, (Tf outs (Vv env s1) == Tf outs (Vv env st))%Q).
      { unfold Tf. induction outs as [|o outs IHo]; simpl; [lra|]. rewrite IHo, HVs. lra. }
      rewrite Hext in Hall. done.
    + destruct Hmn as (E&_). rewrite H2 in E. by destruct (Hacts id Hin Hne).
  - destruct (Hx x Hn) as [-> _]. specialize (Hm x a Hne Ha). lra.
Qed.
Lemma step_phi st id : st_inv st -> mono st -> id ∈ D ->
  (Phi st <= Phi (vi_step st id))%Q /\
  ((vi_delta st <= MDP_ERRDELTA)%Q -> (MDP_ERRDELTA < vi_delta (vi_step st id))%Q ->
   (Phi st + MDP_ERRDELTA <= Phi (vi_step st id))%Q).
Proof.
  intros Hst Hm Hin. destruct (step_frame env goal st id Hst) as (_&_&_&Hx). destruct (step_mono st id Hst Hm Hin) as [Hm2 Hle].
  assert (Hp : forall x, (phi st x <= phi (vi_step st id) x)%Q).
  { intros x. unfold phi. specialize (Hle x). destruct (Z.eq_dec x id) as [-> | Hn].
    - destruct (Z.eqb_spec id goal) as [_|Hne]; [lra|]. destruct (step_new st id Hst Hin Hne) as (a&_&->&_).
      destruct (vd_best (vi_get env st id)); lra.
    - destruct (Hx x Hn) as [_ ->]. destruct (x =? goal); [lra|]. destruct (vd_best (vi_get env st x)); lra. }
  split; [by apply Qsum_le|]. intros Hd Hd2. apply Qsum_lt with id; [auto|done| |unfold MDP_ERRDELTA; lra].
  destruct (Z.eq_dec id goal) as [-> | Hne].
  { exfalso. assert (Ed : vi_delta (vi_step st goal) = vi_delta st); [|rewrite Ed in Hd2; lra].
    destruct (set_actions_spec env goal st goal Hst) as (_&_&_&H4&_). unfold ViProofs2.vi_step, vi_backup. rewrite Z.eqb_refl. simpl. done. }
  destruct (step_new st id Hst Hin Hne) as (a&_&Hb&_&Ed). unfold phi. rewrite (proj2 (Z.eqb_neq id goal) Hne), Hb.
  specialize (Hle id). unfold MDP_ERRDELTA in *. destruct (vd_best (vi_get env st id)) as [b|]; [|lra].
  simpl in Ed. set (e := qabs _) in Ed. destruct (qltb (vi_delta st) e) eqn:E; [|rewrite Ed in Hd2; lra].
  rewrite Ed in Hd2. unfold e, qabs in Hd2. destruct (qltb (Vv env st id - Vv env (vi_step st id) id) 0) eqn:E2;
    [apply qltb_true in E2|apply qltb_false in E2]; lra.
Qed.
Lemma push_keep outs st wl st' wl' : push_spec env outs st wl st' wl' ->
  (mono st -> mono st') /\ Phi st' = Phi st /\ vi_delta st' = vi_delta st.
Proof.
  intros [I Dl B A M O _]. assert (HV : forall x, Vv env st' x = Vv env st x) by (intros x; unfold Vv; by destruct (A x) as (->&_)).
  split_and!; [|unfold Phi; apply (f_equal Qsum), list_fmap_ext; intros _ x _; unfold phi; rewrite HV; by destruct (A x) as (_&->&_)|done].
  intros Hm x a Hne Ha. rewrite HV. specialize (Hm x a Hne Ha).
  assert (Hext : forall outs, (Tf outs (Vv env st') == Tf outs (Vv env st))%Q).
  { unfold Tf. induction outs0 as [|o outs0 IHo]; simpl; [lra|]. rewrite IHo, HV. lra. }
  by rewrite Hext.
Qed.
Lemma forward_phi fuel : forall st wl st', st_inv st -> mono st -> (forall x, x ∈ wl -> x ∈ D) ->
  vi_forward fuel env goal st wl = Ok st' ->
  mono st' /\ (Phi st <= Phi st')%Q /\
  ((vi_delta st <= MDP_ERRDELTA)%Q -> (MDP_ERRDELTA < vi_delta st')%Q -> (Phi st + MDP_ERRDELTA <= Phi st')%Q).
Proof.
  induction fuel as [|fuel IH]; intros st wl st' Hst Hm Hwl; simpl; [done|].
  destruct wl as [|id wl]; [intros [= <-]; split_and!; [done|lra|lra]|]. fold (vi_step st id). fold (next st id wl).
  assert (Hin : id ∈ D) by (apply Hwl; set_solver).
  pose proof (step_push env goal Henv st id wl Hst) as Hp. fold (next st id wl) in Hp.
  destruct (push_keep _ _ _ _ _ Hp) as (K1&K2&K3). destruct (step_mono st id Hst Hm Hin) as [Hm2 _].
  destruct (step_phi st id Hst Hm Hin) as [P1 P2].
  intros H. apply IH in H as (Hm3&H1&H2).
  - rewrite K2, K3 in *. split_and!; [done|lra|]. intros Hd Hd2.
    destruct (Qlt_le_dec MDP_ERRDELTA (vi_delta (vi_step st id))) as [Hl|Hl]; [specialize (P2 Hd Hl)|specialize (H2 Hl Hd2)]; lra.
  - by apply next_inv.
  - auto.
  - intros x. apply (next_measure env goal Henv start D HD st id wl Hst Hin). intros y Hy. apply Hwl. set_solver.
Qed.
Lemma iterate_conv (C : Q) : (forall st, st_inv st -> (Phi st <= C)%Q) -> forall n clock st, st_inv st -> mono st ->
  (C < Phi st + inject_Z (Z.of_nat n) * MDP_ERRDELTA)%Q -> (n < length clock)%nat -> (forall b, b ∈ take (S n) clock -> b = true) ->
  exists st', vi_iterate (length D + 2) env start goal clock st = Ok (st', false).
Proof.
  intros HC. induction n as [|n IH]; intros clock st Hst Hm Hphi Hl Ht.
  - specialize (HC st Hst). change (inject_Z (Z.of_nat 0)) with 0%Q in Hphi. lra.
  - destruct clock as [|b clock]; [simpl in Hl; lia|]. simpl in Hl, Ht.
    assert (b = true) as -> by (apply Ht; set_solver). cbn [vi_iterate].
    destruct (qltb MDP_ERRDELTA (vi_delta st)); [|by eexists]. fold (bump st).
    assert (Hb : st_inv (bump st)) by (by apply (st_inv_mdp env goal st)).
    assert (Hmb : mono (bump st)) by done.
    destruct (forward_total env goal Henv Hadm start D HD (length D + 2) (bump st) [start]) as (st1&H1&_).
    + done.
    + intros x ->%elem_of_list_singleton. apply HD.
    + pose proof (unm_bound env D (bump st)). simpl. lia.
    + rewrite H1. cbn [obind]. pose proof (forward_inv env goal Henv _ _ _ _ Hb H1) as Hst1.
      apply forward_phi in H1 as (Hm1&P1&P2); [|done|done|intros x ->%elem_of_list_singleton; apply HD].
      destruct (Qlt_le_dec MDP_ERRDELTA (vi_delta st1)) as [Hlt|Hle].
      * apply IH; [done|done| |lia|intros b Hb2; apply Ht; set_solver].
        specialize (P2 ltac:(simpl; unfold MDP_ERRDELTA; lra) Hlt). rewrite Nat2Z.inj_succ in Hphi. unfold Z.succ in Hphi.
        rewrite inject_Z_plus in Hphi. change (inject_Z 1) with 1%Q in Hphi.
        change (Phi (bump st)) with (Phi st) in P2. lra.
      * destruct clock as [|b clock]; [simpl in Hl; lia|]. assert (b = true) as -> by (apply Ht; set_solver).
        cbn [vi_iterate]. assert (qltb MDP_ERRDELTA (vi_delta st1) = false) as -> by (by apply qltb_false). by eexists.
Qed.
End conv6.
