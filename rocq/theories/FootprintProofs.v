From Coq Require Import Lia Lqa.
From Verif Require Import Base AngleModel AngleSpec AngleProofs.
Local Open Scope Q_scope.

Lemma qmin_spec a b : (a <= b /\ qmin a b = a) \/ (b < a /\ qmin a b = b).
Proof. unfold qmin. destruct (Qltb_spec b a); [right|left]; split; auto; lra. Qed.
Lemma qmax_spec a b : (a <= b /\ qmax a b = b) \/ (b < a /\ qmax a b = a).
Proof. unfold qmax. destruct (Qltb_spec b a); [right|left]; split; auto; lra. Qed.

Definition up (pt p q : Q * Q) : Prop := p.2 < pt.2 <= q.2.

Lemma crosses_spec pt p q : crosses pt p q = true <->
  (up pt p q /\ 0 <= orient p q pt) \/ (up pt q p /\ orient p q pt <= 0).
Proof.
  destruct pt as [x y], p as [px py], q as [qx qy]. unfold crosses, up, orient; cbn [fst snd].
  rewrite !andb_true_iff, orb_true_iff, negb_true_iff.
  rewrite <- (reflect_iff _ _ (Qltb_spec _ _)), <- !(reflect_iff _ _ (Qleb_spec _ _)), <- (reflect_iff _ _ (Qeqb_spec _ _)).
  assert (Qeq_bool py qy = false <-> ~ py == qy) as ->.
  { destruct (Qeqb_spec py qy); split; intros; done. }
  split.
  - intros ((((H1&H2)&H3)&H4)&H5).
    destruct (qmin_spec py qy) as [[A1 A2]|[A1 A2]]; rewrite A2 in H1;
    destruct (qmax_spec py qy) as [[B1 B2]|[B1 B2]]; rewrite B2 in H2; try lra.
    + assert (py < qy) by lra. left. split; [lra|].
      destruct (qmax_spec px qx) as [[C1 C2]|[C1 C2]]; rewrite C2 in H3;
      (destruct H5 as [H5|H5]; [rewrite H5 in *; nra|]);
      apply (Qmult_le_compat_r _ _ (qy - py)) in H5; try lra;
      (assert (((y - py) * (qx - px) / (qy - py) + px) * (qy - py) == (y - py) * (qx - px) + px * (qy - py)) as E by (field; lra);
      rewrite E in H5; lra).
    + right. split; [lra|].
      destruct (qmax_spec px qx) as [[C1 C2]|[C1 C2]]; rewrite C2 in H3;
      (destruct H5 as [H5|H5]; [rewrite H5 in *; nra|]);
      apply (Qmult_le_compat_r _ _ (py - qy)) in H5; try lra;
      (assert (((y - py) * (qx - px) / (qy - py) + px) * (py - qy) == - ((y - py) * (qx - px)) + px * (py - qy)) as E by (field; lra);
      rewrite E in H5; lra).
  - intros [[H1 H2]|[H1 H2]].
    + assert (x <= (y - py) * (qx - px) / (qy - py) + px) as Hx.
      { apply (Qmult_lt_0_le_reg_r _ _ (qy - py)); [lra|].
        assert (((y - py) * (qx - px) / (qy - py) + px) * (qy - py) == (y - py) * (qx - px) + px * (qy - py)) as -> by (field; lra). lra. }
      destruct (qmin_spec py qy) as [[A1 ->]|[A1 ->]]; [|lra].
      destruct (qmax_spec py qy) as [[B1 ->]|[B1 ->]]; [|lra].
      assert (x <= qmax px qx) by (destruct (qmax_spec px qx) as [[C1 ->]|[C1 ->]]; nra).
      split_and!; first [done | by right | lra].
    + assert (x <= (y - py) * (qx - px) / (qy - py) + px) as Hx.
      { apply (Qmult_lt_0_le_reg_r _ _ (py - qy)); [lra|].
        assert (((y - py) * (qx - px) / (qy - py) + px) * (py - qy) == - ((y - py) * (qx - px)) + px * (py - qy)) as -> by (field; lra). lra. }
      destruct (qmin_spec py qy) as [[A1 ->]|[A1 ->]]; [lra|].
      destruct (qmax_spec py qy) as [[B1 ->]|[B1 ->]]; [lra|].
      assert (x <= qmax px qx) by (destruct (qmax_spec px qx) as [[C1 ->]|[C1 ->]]; nra).
      split_and!; first [done | by right | lra].
Qed.

Lemma orient_swap p q t : orient q p t == - orient p q t.
Proof. unfold orient. ring. Qed.

Lemma crosses_sym pt p q : crosses pt q p = crosses pt p q.
Proof.
  apply eq_bool_prop_intro. rewrite !Is_true_true, !crosses_spec, orient_swap.
  split; (intros [[H1 H2]|[H1 H2]]; [right|left]; (split; [done|lra])).
Qed.

Arguments IsInsideFootprint : simpl never.
(** Parity of the crossings along a chain of vertices. *)
Fixpoint par (pt p : Q * Q) (vs : list (Q * Q)) : bool :=
  match vs with [] => false | q :: vs => xorb (crosses pt p q) (par pt q vs) end.

Lemma loop_par pt vs : forall p c, negb (Nat.even (footprint_loop pt p vs c)) = xorb (negb (Nat.even c)) (par pt p vs).
Proof.
  induction vs as [|q vs IH]; intros p c; simpl; [by rewrite xorb_false_r|].
  rewrite IH. destruct (crosses pt p q).
  - rewrite Nat.even_succ, <- Nat.negb_even. by destruct (Nat.even c), (par pt q vs).
  - by rewrite (xorb_false_l (par pt q vs)).
Qed.
Lemma inside_par pt v vs : IsInsideFootprint pt (v :: vs) = Some (par pt v (vs ++ [v])).
Proof. change (Some (negb (Nat.even (footprint_loop pt v (vs ++ [v]) 0))) = Some (par pt v (vs ++ [v]))). rewrite (loop_par pt (vs ++ [v]) v 0). simpl. f_equal. by destruct (par _ _ _). Qed.

Lemma par_app pt vs : forall p q ws, par pt p (vs ++ q :: ws) = xorb (par pt p (vs ++ [q])) (par pt q ws).
Proof.
  induction vs as [|v vs IH]; intros p q ws; simpl; [by rewrite xorb_false_r|].
  rewrite (IH v q ws). by rewrite xorb_assoc.
Qed.

Lemma inside_rotate pt vs ws : vs <> [] -> ws <> [] ->
  IsInsideFootprint pt (vs ++ ws) = IsInsideFootprint pt (ws ++ vs).
Proof.
  destruct vs as [|v vs]; [done|]. destruct ws as [|w ws]; [done|]. intros _ _.
  simpl. rewrite !inside_par. f_equal.
  rewrite <- !app_assoc. simpl. rewrite (par_app pt vs v w (ws ++ [v])), (par_app pt ws w v (vs ++ [w])). apply xorb_comm.
Qed.

Lemma par_rev pt vs : forall p q, par pt p (vs ++ [q]) = par pt q (reverse vs ++ [p]).
Proof.
  induction vs as [|v vs IH]; intros p q; simpl; [by rewrite crosses_sym|].
  rewrite (IH v q), reverse_cons, <- app_assoc. simpl.
  rewrite (par_app pt (reverse vs) q v [p]). simpl. rewrite xorb_false_r, (crosses_sym pt p v). apply xorb_comm.
Qed.
Lemma inside_reverse pt vs : IsInsideFootprint pt (reverse vs) = IsInsideFootprint pt vs.
Proof.
  destruct vs as [|v vs]; [done|]. rewrite reverse_cons. destruct (reverse vs) as [|w ws] eqn:E.
  - apply (f_equal reverse) in E. rewrite reverse_involutive in E. by subst.
  - rewrite <- E. rewrite inside_rotate by (rewrite ?E; done). simpl. rewrite !inside_par. f_equal.
    by rewrite par_rev, reverse_involutive.
Qed.

Lemma inside_fan pt a b c vs bt br :
  IsInsideFootprint pt [a; b; c] = Some bt -> IsInsideFootprint pt (a :: c :: vs) = Some br ->
  IsInsideFootprint pt (a :: b :: c :: vs) = Some (xorb bt br).
Proof.
  rewrite !inside_par. simpl. intros [= <-] [= <-]. f_equal. rewrite xorb_false_r, (crosses_sym pt a c).
  destruct (crosses pt a b), (crosses pt b c), (crosses pt a c), (par pt c (vs ++ [a])); done.
Qed.

Lemma up_dec pt p q : {up pt p q} + {~ up pt p q}.
Proof.
  unfold up. destruct (Qlt_le_dec (p.2) (pt.2)); [|right; lra]. destruct (Qlt_le_dec (q.2) (pt.2)); [right; lra|]. left. lra.
Qed.

Lemma bary pt a b c :
  orient a b pt * (c.2 - pt.2) + orient b c pt * (a.2 - pt.2) + orient c a pt * (b.2 - pt.2) == 0.
Proof. unfold orient. ring. Qed.
Lemma total pt a b c : orient a b pt + orient b c pt + orient c a pt == orient a b c.
Proof. unfold orient. ring. Qed.

Definition crb (pt p q : Q * Q) (b : bool) : Prop := crosses pt p q = b.
Lemma crosses_flat_lo pt p q : p.2 < pt.2 -> q.2 < pt.2 -> crosses pt p q = false.
Proof. intros. apply not_true_is_false. rewrite crosses_spec. unfold up. intros [[? ?]|[? ?]]; lra. Qed.
Lemma crosses_flat_hi pt p q : pt.2 <= p.2 -> pt.2 <= q.2 -> crosses pt p q = false.
Proof. intros. apply not_true_is_false. rewrite crosses_spec. unfold up. intros [[? ?]|[? ?]]; lra. Qed.
Lemma crosses_up pt p q : p.2 < pt.2 -> pt.2 <= q.2 ->
  (0 <= orient p q pt /\ crosses pt p q = true) \/ (orient p q pt < 0 /\ crosses pt p q = false).
Proof.
  intros. destruct (Qlt_le_dec (orient p q pt) 0).
  - right. split; [done|]. apply not_true_is_false. rewrite crosses_spec. unfold up. intros [[? ?]|[? ?]]; lra.
  - left. split; [done|]. rewrite crosses_spec. left. unfold up. split; lra.
Qed.
Lemma crosses_down pt p q : pt.2 <= p.2 -> q.2 < pt.2 ->
  (orient p q pt <= 0 /\ crosses pt p q = true) \/ (0 < orient p q pt /\ crosses pt p q = false).
Proof.
  intros. destruct (Qlt_le_dec 0 (orient p q pt)).
  - right. split; [done|]. apply not_true_is_false. rewrite crosses_spec. unfold up. intros [[? ?]|[? ?]]; lra.
  - left. split; [done|]. rewrite crosses_spec. right. unfold up. split; lra.
Qed.

Ltac edge pt p q := 
  first [ rewrite (crosses_flat_lo pt p q) by lra
        | rewrite (crosses_flat_hi pt p q) by lra
        | let H := fresh in let E := fresh "E" in destruct (crosses_up pt p q ltac:(lra) ltac:(lra)) as [[H E]|[H E]]; rewrite E
        | let H := fresh in let E := fresh "E" in destruct (crosses_down pt p q ltac:(lra) ltac:(lra)) as [[H E]|[H E]]; rewrite E ].

Lemma triangle_in pt a b c : strictly_in_ccw a b c pt -> IsInsideFootprint pt [a; b; c] = Some true.
Proof.
  intros (Ha&Hb&Hc). rewrite inside_par. simpl. f_equal. pose proof (bary pt a b c) as Hbar.
  destruct (Qlt_le_dec (a.2) (pt.2)), (Qlt_le_dec (b.2) (pt.2)), (Qlt_le_dec (c.2) (pt.2));
  edge pt a b; edge pt b c; edge pt c a; simpl; try done; try lra; exfalso.
  - assert (0 < orient a b pt * (pt.2 - c.2)) by (apply Qmult_lt_0_compat; lra).
    assert (0 < orient b c pt * (pt.2 - a.2)) by (apply Qmult_lt_0_compat; lra).
    assert (0 < orient c a pt * (pt.2 - b.2)) by (apply Qmult_lt_0_compat; lra). lra.
  - assert (0 <= orient a b pt * (c.2 - pt.2)) as H1 by (apply Qmult_le_0_compat; lra).
    assert (0 <= orient b c pt * (a.2 - pt.2)) as H2 by (apply Qmult_le_0_compat; lra).
    assert (0 <= orient c a pt * (b.2 - pt.2)) as H3 by (apply Qmult_le_0_compat; lra).
    assert (a.2 - pt.2 == 0) as Ea.
    { assert (orient b c pt * (a.2 - pt.2) == 0) as [E|E]%Qmult_integral by lra; lra. }
    assert (b.2 - pt.2 == 0) as Eb.
    { assert (orient c a pt * (b.2 - pt.2) == 0) as [E|E]%Qmult_integral by lra; lra. }
    unfold orient in Ha. assert (pt.2 - a.2 == 0) as E1 by lra. assert (b.2 - a.2 == 0) as E2 by lra.
    rewrite E1, E2 in Ha. lra.
Qed.

Lemma triangle_out pt a b c : 0 < orient a b c -> strictly_out_ccw a b c pt -> IsInsideFootprint pt [a; b; c] = Some false.
Proof.
  intros Ht Hout. rewrite inside_par. simpl. f_equal. pose proof (bary pt a b c) as Hbar. pose proof (total pt a b c) as Htot.
  rewrite <- Htot in Ht. clear Htot. unfold strictly_out_ccw in Hout.
  destruct (Qlt_le_dec (a.2) (pt.2)), (Qlt_le_dec (b.2) (pt.2)), (Qlt_le_dec (c.2) (pt.2));
  edge pt a b; edge pt b c; edge pt c a; simpl; try done; exfalso;
  repeat match goal with E : crosses _ _ _ = _ |- _ => clear E end;
  generalize dependent (orient a b pt); intros A; generalize dependent (orient b c pt); intros B;
  generalize dependent (orient c a pt); intros C; intros; destruct Hout as [?|[?|?]]; try lra;
  generalize dependent (a.2); intros ay; generalize dependent (b.2); intros by_;
  generalize dependent (c.2); intros cy; generalize dependent (pt.2); intros; nra.
Qed.

Lemma par_all_false pt vs : forall p, (forall q r, q ∈ p :: vs -> r ∈ p :: vs -> crosses pt q r = false) -> par pt p vs = false.
Proof.
  induction vs as [|v vs IH]; intros p H; simpl; [done|].
  rewrite H by set_solver. rewrite IH; [done|]. intros q r Hq Hr. apply H; set_solver.
Qed.

Definition belowb (pt p : Q * Q) : bool := Qltb (p.2) (pt.2).
Lemma crosses_left pt p q : pt.1 < p.1 -> pt.1 < q.1 -> crosses pt p q = xorb (belowb pt p) (belowb pt q).
Proof.
  intros Hp Hq. unfold belowb.
  destruct (Qltb_spec (p.2) (pt.2)), (Qltb_spec (q.2) (pt.2)); simpl.
  - apply crosses_flat_lo; lra.
  - destruct (crosses_up pt p q ltac:(lra) ltac:(lra)) as [[_ ?]|[H ?]]; [done|exfalso].
    unfold orient in H. nra.
  - destruct (crosses_down pt p q ltac:(lra) ltac:(lra)) as [[_ ?]|[H ?]]; [done|exfalso].
    unfold orient in H. nra.
  - apply crosses_flat_hi; lra.
Qed.
Lemma par_left pt vs : forall p q, (forall r, r ∈ p :: vs ++ [q] -> pt.1 < r.1) -> par pt p (vs ++ [q]) = xorb (belowb pt p) (belowb pt q).
Proof.
  induction vs as [|v vs IH]; intros p q H; simpl.
  - rewrite xorb_false_r. apply crosses_left; apply H; set_solver.
  - rewrite IH by (intros; apply H; set_solver). rewrite crosses_left by (apply H; set_solver).
    destruct (belowb pt p), (belowb pt v), (belowb pt q); done.
Qed.

Lemma inside_bbox pt poly : poly <> [] ->
  ((forall v, v ∈ poly -> pt.1 < v.1) \/ (forall v, v ∈ poly -> v.1 < pt.1) \/
   (forall v, v ∈ poly -> pt.2 < v.2) \/ (forall v, v ∈ poly -> v.2 < pt.2)) ->
  IsInsideFootprint pt poly = Some false.
Proof.
  destruct poly as [|v vs]; [done|]. intros _ H. rewrite inside_par. f_equal.
  assert (forall r, r ∈ v :: vs ++ [v] -> r ∈ v :: vs) as Hin by set_solver.
  destruct H as [H|[H|[H|H]]].
  - rewrite par_left by auto. apply xorb_nilpotent.
  - apply par_all_false. intros q r Hq Hr. apply not_true_is_false. intros Hc.
    unfold crosses in Hc. rewrite !andb_true_iff in Hc. destruct Hc as ((((_&_)&Hc)&_)&_).
    apply Qle_bool_iff in Hc. apply Hin, H in Hq. apply Hin, H in Hr.
    destruct (qmax_spec (q.1) (r.1)) as [[_ E]|[_ E]]; rewrite E in Hc; lra.
  - apply par_all_false. intros q r Hq Hr. apply Hin, H in Hq. apply Hin, H in Hr. apply crosses_flat_hi; lra.
  - apply par_all_false. intros q r Hq Hr. apply Hin, H in Hq. apply Hin, H in Hr. apply crosses_flat_lo; lra.
Qed.
