(** The value-iteration planner: strategies, lower bounds, and the frame of the work list operations. *)
From Verif Require Import Base MdpModel MdpSpec EvalModel EvalSpec EvalProofs EvalProofs2 EvalProofs3 ViModel ViSpec.
From Coq Require Import Lqa.
Local Open Scope Z_scope.

(** * Strategy costs *)
Section strat.
Context (env : vienv) (goal : Z) (Henv : env_ok 0 env).

Lemma scost_shift s n base : forall h x,
  strategy_cost env goal s n (h ++ base) x = strategy_cost env goal (fun l => s (l ++ base)) n h x.
Proof.
  induction n as [|n IH]; intros h x; simpl; [done|]. destruct (x =? goal); [done|].
  destruct (ve_acts env x !! s (x :: h ++ base)) as [a|].
  - assert (E : forall outs, expect outs (fun c y => (inject_Z c + strategy_cost env goal s n (x :: h ++ base) y)%Q) =
      expect outs (fun c y => (inject_Z c + strategy_cost env goal (fun l => s (l ++ base)) n (x :: h) y)%Q)).
    { induction outs as [|o outs IHo]; simpl; [done|]. rewrite IHo. f_equal. f_equal. f_equal. apply (IH (x :: h)). }
    apply E.
  - f_equal. apply (IH (x :: h)).
Qed.
Lemma scost_mono s n : forall h x, (0 <= strategy_cost env goal s n h x)%Q /\
  (strategy_cost env goal s n h x <= strategy_cost env goal s (S n) h x)%Q.
Proof.
  induction n as [|n IH]; intros h x.
  - change (strategy_cost env goal s 0 h x) with 0%Q. split; [lra|]. simpl.
    destruct (x =? goal); [lra|]. destruct (ve_acts env x !! s (x :: h)) as [a|] eqn:E; [|lra].
    apply elem_of_list_lookup_2 in E. pose proof (Henv x a E) as Hok.
    apply expect_nonneg; [by eauto using outs_ok_nonneg|]. intros o Ho.
    assert (inject_Z 0 <= inject_Z (o.1.2))%Q by (apply inject_le; by apply Hok). change (inject_Z 0) with 0%Q in *. lra.
  - change (strategy_cost env goal s (S n) h x) with (if x =? goal then 0%Q
           else match ve_acts env x !! s (x :: h) with
                | Some a => expect (ea_outs a) (fun c y => (inject_Z c + strategy_cost env goal s n (x :: h) y)%Q)
                | None => (1 + strategy_cost env goal s n (x :: h) x)%Q
                end).
    change (strategy_cost env goal s (S (S n)) h x) with (if x =? goal then 0%Q
           else match ve_acts env x !! s (x :: h) with
                | Some a => expect (ea_outs a) (fun c y => (inject_Z c + strategy_cost env goal s (S n) (x :: h) y)%Q)
                | None => (1 + strategy_cost env goal s (S n) (x :: h) x)%Q
                end).
    destruct (x =? goal); [lra|]. destruct (ve_acts env x !! s (x :: h)) as [a|] eqn:E.
    + apply elem_of_list_lookup_2 in E. pose proof (Henv x a E) as Hok. split.
      * apply expect_nonneg; [by eauto using outs_ok_nonneg|]. intros o Ho. destruct (IH (x :: h) (o.1.1)) as [Hn _].
        assert (inject_Z 0 <= inject_Z (o.1.2))%Q by (apply inject_le; by apply Hok). change (inject_Z 0) with 0%Q in *. lra.
      * apply expect_mono; [by eauto using outs_ok_nonneg|]. intros o Ho. destruct (IH (x :: h) (o.1.1)) as [_ Hn]. lra.
    + destruct (IH (x :: h) x). split; lra.
Qed.
Lemma scost_le s n m h x : (n <= m)%nat -> (strategy_cost env goal s n h x <= strategy_cost env goal s m h x)%Q.
Proof. intros H. induction H as [|m H IH]; [lra|]. destruct (scost_mono s m h x). lra. Qed.

Lemma below_hist x v s h eps : below_optimum env goal x v -> (0 < eps)%Q ->
  exists n, (v <= strategy_cost env goal s n h x + eps)%Q.
Proof.
  intros Hb He. destruct (Hb (fun l => s (l ++ h)) eps He) as [n Hn]. exists n.
  by rewrite <- (scost_shift s n h [] x) in Hn.
Qed.
Lemma below_outs V s h eps (outs : list (Z * Z * Q)) : (forall x, below_optimum env goal x (V x)) -> (0 < eps)%Q ->
  exists n, forall o : Z * Z * Q, o ∈ outs -> (V (o.1.1) <= strategy_cost env goal s n h (o.1.1) + eps)%Q.
Proof.
  intros HV He. induction outs as [|o outs [n IH]]; [exists 0%nat; intros o Ho; by apply elem_of_nil in Ho|].
  destruct (below_hist (o.1.1) (V (o.1.1)) s h eps (HV _) He) as [m Hm]. exists (max n m).
  intros o' [->|Ho']%elem_of_cons.
  - pose proof (scost_le s m (max n m) h (o.1.1) ltac:(lia)). lra.
  - specialize (IH o' Ho'). pose proof (scost_le s n (max n m) h (o'.1.1) ltac:(lia)). lra.
Qed.
(** A value that is at most the backed-up value of every action stays below the optimum. *)
Lemma below_backup V x v : (forall y, below_optimum env goal y (V y)) -> x <> goal ->
  (forall a, a ∈ ve_acts env x -> (v <= Tf (ea_outs a) V)%Q) -> below_optimum env goal x v.
Proof.
  intros HV Hne Hv s eps He.
  assert (Hk : forall k h, exists n, (v <= strategy_cost env goal s n h x + eps \/
                                      inject_Z (Z.of_nat k) <= strategy_cost env goal s n h x + eps)%Q).
  { induction k as [|k IH]; intros h.
    - exists 0%nat. right. change (inject_Z (Z.of_nat 0)) with 0%Q. simpl. lra.
    - destruct (ve_acts env x !! s (x :: h)) as [a|] eqn:E.
      + pose proof (elem_of_list_lookup_2 _ _ _ E) as Ha. pose proof (Henv x a Ha) as Hok.
        destruct (below_outs V s (x :: h) eps (ea_outs a) HV He) as [n Hn]. exists (S n). left. simpl.
        destruct (Z.eqb_spec x goal); [done|]. rewrite E. specialize (Hv a Ha).
        assert (Tf (ea_outs a) V <= expect (ea_outs a) (fun c y => (inject_Z c + strategy_cost env goal s n (x :: h) y)%Q) + eps)%Q; [|lra].
        apply (expect_shift 0); [done|]. intros o Ho. specialize (Hn o Ho). lra.
      + destruct (IH (x :: h)) as [n Hn]. exists (S n). simpl. destruct (Z.eqb_spec x goal); [done|]. rewrite E.
        rewrite Nat2Z.inj_succ. unfold Z.succ. rewrite inject_Z_plus. change (inject_Z 1) with 1%Q.
        destruct Hn as [Hn|Hn]; [left|right]; lra. }
  destruct (Qarchimedean v) as [p Hp]. destruct (Hk (Pos.to_nat p) []) as [n Hn]. exists n.
  rewrite positive_nat_Z in Hn. change (Z.pos p # 1) with (inject_Z (Z.pos p)) in Hp. destruct Hn; lra.
Qed.
Lemma below_goal v : (v <= 0)%Q -> below_optimum env goal goal v.
Proof. intros Hv s eps He. exists 0%nat. simpl. lra. Qed.
Lemma below_goal_inv v : below_optimum env goal goal v -> (v <= 0)%Q.
Proof.
  intros H. apply Qnot_lt_le. intros Hlt. destruct (H (fun _ => 0%nat) (v / 2)%Q) as [n Hn].
  - apply Qlt_shift_div_l; lra.
  - assert (E : strategy_cost env goal (fun _ => 0%nat) n [] goal = 0%Q) by (destruct n; simpl; [done|by rewrite Z.eqb_refl]).
    rewrite E in Hn. assert (v / 2 == v * (1 # 2))%Q by field. lra.
Qed.
End strat.

(** * Look-ups *)
Lemma get_insert env m it dl b id d x :
  vi_get env (mkVI (<[id := d]> m) it dl b) x = if x =? id then d else vi_get env (mkVI m it dl b) x.
Proof.
  unfold vi_get. simpl. destruct (Z.eqb_spec x id) as [-> | H]; [by rewrite lookup_insert|by rewrite lookup_insert_ne].
Qed.
Lemma get_mdp env st st' x : vi_mdp st' = vi_mdp st -> vi_get env st' x = vi_get env st x.
Proof. unfold vi_get. by intros ->. Qed.
Definition Vv (env : vienv) (st : vist) (x : Z) : Q := vd_v (vi_get env st x).

(** What one push does: marks the named states and puts the ones not marked before on the work list. *)
Record push_spec (env : vienv) (outs : list (Z * Z * Q)) (st : vist) (wl : list Z) (st' : vist) (wl' : list Z) : Prop := {
  ps_it : vi_iter st' = vi_iter st;
  ps_delta : vi_delta st' = vi_delta st;
  ps_back : vi_backups st' = vi_backups st;
  ps_data : forall x, vd_v (vi_get env st' x) = vd_v (vi_get env st x) /\ vd_best (vi_get env st' x) = vd_best (vi_get env st x) /\
              vd_acts (vi_get env st' x) = vd_acts (vi_get env st x);
  ps_mark : forall x, vd_iter (vi_get env st' x) = vd_iter (vi_get env st x) \/ vd_iter (vi_get env st' x) = vi_iter st;
  ps_out : forall o, o ∈ outs -> vd_iter (vi_get env st' (o.1.1)) = vi_iter st;
  ps_wl : exists new, wl' = new ++ wl /\ NoDup new /\
     (forall x, x ∈ new <-> vd_iter (vi_get env st' x) = vi_iter st /\ vd_iter (vi_get env st x) <> vi_iter st) /\
     (forall x, x ∈ new -> exists o, o ∈ outs /\ o.1.1 = x);
}.
Lemma push_spec_nil env st wl : push_spec env [] st wl st wl.
Proof.
  split; try done; auto.
  - intros o Ho. by apply elem_of_nil in Ho.
  - exists []. split_and!; [done|constructor| |]; intros x; rewrite elem_of_nil; tauto.
Qed.
Lemma push_spec_trans env outs1 outs2 st wl st1 wl1 st2 wl2 :
  push_spec env outs1 st wl st1 wl1 -> push_spec env outs2 st1 wl1 st2 wl2 ->
  push_spec env (outs1 ++ outs2) st wl st2 wl2.
Proof.
  intros [I1 D1 B1 A1 M1 O1 (n1&W1&N1&X1&Y1)] [I2 D2 B2 A2 M2 O2 (n2&W2&N2&X2&Y2)]. rewrite I1 in *.
  split; try congruence.
  - intros x. destruct (A1 x) as (?&?&?), (A2 x) as (?&?&?). split_and!; congruence.
  - intros x. destruct (M1 x) as [E1|E1], (M2 x) as [E2|E2]; rewrite ?E2, ?E1; auto.
  - intros o [Ho|Ho]%elem_of_app; [|by apply O2]. destruct (M2 (o.1.1)) as [E|E]; rewrite E; [by apply O1|done].
  - exists (n2 ++ n1). split_and!.
    + by rewrite W2, W1, app_assoc.
    + apply NoDup_app. split_and!; [done| |done]. intros x Hx2 Hx1. apply X2 in Hx2 as [_ Hx2]. by apply X1 in Hx1 as [Hx1 _].
    + intros x. rewrite elem_of_app, X1, X2. destruct (M1 x) as [E1|E1], (M2 x) as [E2|E2]; rewrite ?E2, ?E1;
        destruct (decide (vd_iter (vi_get env st x) = vi_iter st)); tauto.
    + intros x [Hx|Hx]%elem_of_app; [destruct (Y2 x Hx) as (o&?&?)|destruct (Y1 x Hx) as (o&?&?)]; exists o; split; set_solver.
Qed.
Lemma push_spec_weaken env outs outs' st wl st' wl' : (forall o, o ∈ outs <-> o ∈ outs') ->
  push_spec env outs st wl st' wl' -> push_spec env outs' st wl st' wl'.
Proof.
  intros H [I D B A M O (n&W&N&X&Y)]. split; try done.
  - intros o Ho. apply O. by apply H.
  - exists n. split_and!; try done. intros x Hx. destruct (Y x Hx) as (o&Ho&E). exists o. by rewrite <- H.
Qed.
Lemma vi_push_spec env outs : forall st wl, push_spec env outs st wl (vi_push env st outs wl).1 (vi_push env st outs wl).2.
Proof.
  induction outs as [|o outs IH]; intros st wl; simpl; [apply push_spec_nil|].
  destruct (Z.eqb_spec (vd_iter (vi_get env st (o.1.1))) (vi_iter st)) as [E|E].
  - apply (push_spec_trans env [o] outs st wl st wl); [|apply IH]. split; try done; auto.
    + intros o' Ho'. apply elem_of_list_singleton in Ho' as ->. done.
    + exists []. split_and!; [done|constructor| |]; intros x; rewrite elem_of_nil; tauto.
  - eapply (push_spec_trans env [o] outs); [|apply IH].
    assert (G : forall x, vi_get env (vi_put st (o.1.1) (mkVD (vd_v (vi_get env st (o.1.1))) (vi_iter st)
       (vd_best (vi_get env st (o.1.1))) (vd_acts (vi_get env st (o.1.1))))) x =
       if x =? o.1.1 then mkVD (vd_v (vi_get env st (o.1.1))) (vi_iter st)
       (vd_best (vi_get env st (o.1.1))) (vd_acts (vi_get env st (o.1.1))) else vi_get env st x).
    { intros x. unfold vi_put. rewrite get_insert. destruct (x =? o.1.1); done. }
    split; try done.
    + intros x. rewrite G. destruct (Z.eqb_spec x (o.1.1)) as [-> | _]; done.
    + intros x. rewrite G. destruct (Z.eqb_spec x (o.1.1)) as [-> | _]; [by right|by left].
    + intros o' Ho'. apply elem_of_list_singleton in Ho' as ->. by rewrite G, Z.eqb_refl.
    + exists [o.1.1]. split_and!; [done|apply NoDup_singleton| |].
      * intros x. rewrite elem_of_list_singleton, G. destruct (Z.eqb_spec x (o.1.1)) as [-> | Hx]; simpl; tauto.
      * intros x ->%elem_of_list_singleton. exists o. split; [set_solver|done].
Qed.
Definition best_outs (d : vidata) : list (Z * Z * Q) := match vd_best d with None => [] | Some a => ea_outs a end.
Lemma vi_push_acts_spec env id acts : forall st wl, (acts = [] -> vd_best (vi_get env st id) = None) ->
  push_spec env (best_outs (vi_get env st id)) st wl (vi_push_acts env id acts st wl).1 (vi_push_acts env id acts st wl).2.
Proof.
  assert (G : forall st wl st' wl', push_spec env (best_outs (vi_get env st id)) st wl st' wl' ->
    best_outs (vi_get env st' id) = best_outs (vi_get env st id)).
  { intros st wl st' wl' [_ _ _ A _ _ _]. unfold best_outs. by destruct (A id) as (_&->&_). }
  assert (One : forall st wl, push_spec env (best_outs (vi_get env st id)) st wl
     (match vd_best (vi_get env st id) with None => (st, wl) | Some a => vi_push env st (ea_outs a) wl end).1
     (match vd_best (vi_get env st id) with None => (st, wl) | Some a => vi_push env st (ea_outs a) wl end).2).
  { intros st wl. unfold best_outs. destruct (vd_best (vi_get env st id)); [apply vi_push_spec|apply push_spec_nil]. }
  induction acts as [|b acts IH]; intros st wl Hb; simpl.
  - unfold best_outs. rewrite Hb by done. apply push_spec_nil.
  - set (r := match vd_best (vi_get env st id) with None => (st, wl) | Some a => vi_push env st (ea_outs a) wl end).
    assert (H1 : push_spec env (best_outs (vi_get env st id)) st wl r.1 r.2) by apply One.
    destruct (decide (acts = [])) as [-> | Hne]; [done|].
    pose proof (G _ _ _ _ H1) as E.
    pose proof (IH r.1 r.2 ltac:(done)) as H2. rewrite E in H2.
    eapply push_spec_weaken; [|eapply push_spec_trans; [exact H1|exact H2]]. set_solver.
Qed.

(** * The backup *)
Lemma vi_actionQ_spec env st outs q : (vi_actionQ env st outs q == q + Tf outs (Vv env st))%Q.
Proof.
  revert q. induction outs as [|o outs IH]; intros q; simpl; [unfold Tf; simpl; ring|].
  rewrite IH. unfold Tf, Vv. simpl. ring.
Qed.
Lemma vi_min_spec env st acts : forall minq mina,
  match mina with
  | Some a0 => (minq == Tf (ea_outs a0) (Vv env st))%Q
  | None => True
  end ->
  let r := vi_min env st acts minq mina in
  match r.2 with
  | Some a => (a ∈ acts \/ mina = Some a) /\ (r.1 == Tf (ea_outs a) (Vv env st))%Q /\
              (forall b, b ∈ acts \/ mina = Some b -> (r.1 <= Tf (ea_outs b) (Vv env st))%Q)
  | None => acts = [] /\ mina = None /\ r.1 = minq
  end.
Proof.
  induction acts as [|a acts IH]; intros minq mina Hm; simpl.
  - destruct mina as [a0|]; [|done]. split_and!; [by right|done|]. intros b [Hb|[= ->]]; [by apply elem_of_nil in Hb|].
    rewrite Hm. apply Qle_refl.
  - set (q := vi_actionQ env st (ea_outs a) 0). assert (Hq : (q == Tf (ea_outs a) (Vv env st))%Q).
    { unfold q. rewrite vi_actionQ_spec. ring. }
    assert (Htake : let r := vi_min env st acts q (Some a) in
       exists c, r.2 = Some c /\ (c ∈ acts \/ c = a) /\ (r.1 == Tf (ea_outs c) (Vv env st))%Q /\
         (r.1 <= q)%Q /\ forall b, b ∈ acts -> (r.1 <= Tf (ea_outs b) (Vv env st))%Q).
    { specialize (IH q (Some a) Hq). simpl in IH |- *. destruct (vi_min env st acts q (Some a)) as [r1 [c|]]; simpl in *.
      - destruct IH as (Hc&Hr&Hall). exists c. split_and!; auto.
        + destruct Hc as [?|[= ->]]; auto.
        + rewrite Hq. apply Hall. by right.
      - by destruct IH as (_&?&_). }
    destruct mina as [a0|].
    + destruct (qltb q minq) eqn:El.
      * apply qltb_true in El. destruct Htake as (c&Hc&Hin&Hr&Hle&Hall). rewrite Hc. split_and!; [|done|].
        -- destruct Hin as [?| ->]; left; set_solver.
        -- intros b [[->|Hb]%elem_of_cons|[= <-]]; [rewrite <- Hq; done|by apply Hall|]. rewrite <- Hm. lra.
      * apply qltb_false in El. specialize (IH minq (Some a0) Hm). simpl in IH.
        destruct (vi_min env st acts minq (Some a0)) as [r1 [c|]]; simpl in *.
        -- destruct IH as (Hc&Hr&Hall). split_and!; [destruct Hc; [left; set_solver|by right]|done|].
           intros b [[->|Hb]%elem_of_cons|Hb]; [|by apply Hall; left|by apply Hall; right].
           rewrite <- Hq. apply Qle_trans with minq; [rewrite Hm; apply Hall; by right|done].
        -- by destruct IH as (_&?&_).
    + destruct Htake as (c&Hc&Hin&Hr&Hle&Hall). rewrite Hc. split_and!; [|done|].
      * destruct Hin as [?| ->]; left; set_solver.
      * intros b [[->|Hb]%elem_of_cons|?]; [rewrite <- Hq; done|by apply Hall|done].
Qed.
Lemma qabs_bounds x d : (qabs x <= d)%Q -> (- d <= x)%Q /\ (x <= d)%Q.
Proof.
  unfold qabs. destruct (qltb x 0) eqn:E; [apply qltb_true in E|apply qltb_false in E]; intros H; split; lra.
Qed.
Lemma qabs_nonneg x : (0 <= qabs x)%Q.
Proof. unfold qabs. destruct (qltb x 0) eqn:E; [apply qltb_true in E|apply qltb_false in E]; lra. Qed.
