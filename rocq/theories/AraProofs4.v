(** One iteration of Search's main loop, and the loop. *)
From Coq Require Import ZifyBool ZifyNat QArith Qround Lqa.
From Verif Require Import Base KeyModel HeapModel HeapProofs ListModel ListProofs AngleModel AngleProofs AraModel AraSpec AraProofs AraProofs2 AraPath AraProofs3.
Local Open Scope Z_scope.
Ltac wcbn := cbn [with_reeval with_reinit with_core with_sat with_eps with_new with_iter0 with_call_incr with_iter_incr with_goal with_start
  aC aEps aSat aIter aCall aGoal aStart aReeval aReinit aNew aFwd aFirst aInit aDec aFinal aWrap] in *.

Definition same_rest (p p' : ara) : Prop :=
  aCall p' = aCall p /\ aGoal p' = aGoal p /\ aStart p' = aStart p /\ aReinit p' = aReinit p /\ aFwd p' = aFwd p /\
  aFirst p' = aFirst p /\ aInit p' = aInit p /\ aDec p' = aDec p /\ aFinal p' = aFinal p.
Lemma same_rest_refl p : same_rest p p.
Proof. done. Qed.
Lemma same_rest_trans p1 p2 p3 : same_rest p1 p2 -> same_rest p2 p3 -> same_rest p1 p3.
Proof. intros (?&?&?&?&?&?&?&?&?) (?&?&?&?&?&?&?&?&?). split_and!; congruence. Qed.

Section loop.
Context (fwd con : bool) (E : Q) (G : nat -> list (nat * Z)) (e : aenv) (start goal : nat).
Definition linv (p : ara) : Prop :=
  pinv fwd con E G e p /\ aReinit p = false /\ hvalid e fwd (aC p) /\ aStart p = Some start /\ aGoal p = Some goal.
Definition gg (p : ara) : Z := sG (lk e fwd (aCall p) (aC p) goal).
Definition gcur (p : ara) : Prop := current (aCall p) (aC p) goal.

Lemma linv_search p : linv p -> exists m z, cinv G e fwd (aCall p) (aIter p) start None (aC p) m z /\
    (aNew p = false -> iinv G e fwd con (aEps p) (aCall p) (aIter p) start (aC p) m z) /\
    (aReeval p = false -> kinv e fwd (aEps p) (aCall p) (aC p) m) /\ satinv fwd con G e start p.
Proof.
  intros (P&Hr&Hv&Hs&Hg). destruct (p_search _ _ _ _ _ _ P Hr) as (s&m&z&Es&_&I&II&K&J). rewrite Hs in Es. injection Es as <-. eauto 10.
Qed.
(** Rebuilding the invariant from its parts. *)
Lemma linv_intro p p' m z : linv p -> same_rest p p' -> 0 <= aIter p' -> (0 <= aEps p' <= E)%Q ->
  hvalid e fwd (aC p') -> cinv G e fwd (aCall p') (aIter p') start None (aC p') m z ->
  (aNew p' = false -> iinv G e fwd con (aEps p') (aCall p') (aIter p') start (aC p') m z) ->
  (aReeval p' = false -> kinv e fwd (aEps p') (aCall p') (aC p') m) -> satinv fwd con G e start p' ->
  (forall s, is_Some (cSt (aC p) !! s) -> is_Some (cSt (aC p') !! s)) -> linv p'.
Proof.
  intros (P&Hr&_&Hs&Hg) (S1&S2&S3&S4&S5&S6&S7&S8&S9) Hi He Hv I II K J Hp. destruct P.
  split_and!; try congruence; try done. split; try congruence; try done.
  - exists m, z. split_and!; try apply I. intros s Hs0. apply (ci_inc _ _ _ _ _ _ _ _ _ _ I) in Hs0.
    destruct (lk_finite e fwd (aCall p') (aC p') s) as (a&Ea&_); [|eauto]. pose proof (ci_g _ _ _ _ _ _ _ _ _ _ I s). lia.
  - apply I.
  - lia.
  - intros s. rewrite S3. auto.
  - intros s. rewrite S2. auto.
  - intros _. exists start, m, z. split_and!; try congruence; done.
Qed.
Lemma satinv_mono p p' : satinv fwd con G e start p -> aGoal p = Some goal -> aGoal p' = Some goal -> aSat p' = aSat p ->
  (gcur p -> gcur p') -> gg p' <= gg p -> satinv fwd con G e start p'.
Proof.
  intros [J|(g&Hg&Hc&Hb)] Eg Eg' Es Hcur Hle; [left; congruence|right]. rewrite Eg in Hg. injection Hg as <-. exists goal.
  split_and!; [done|by apply Hcur|]. intros Hcon C HC. rewrite Es in HC. specialize (Hb Hcon C HC). unfold gg in Hle. lia.
Qed.

Lemma eps_step_spec p b : linv p -> linv (eps_step p b) /\ same_rest p (eps_step p b) /\ aIter (eps_step p b) = aIter p /\
  aC (eps_step p b) = aC p /\ aSat (eps_step p b) = aSat p /\ aWrap (eps_step p b) = aWrap p.
Proof.
  intros L. unfold eps_step. destruct (Qltb (Qabs (aSat p - aEps p)) ERR_EPS && negb b); [|done].
  assert (0 <= (if Qltb (aEps p - aDec p) (aFinal p) then aFinal p else aEps p - aDec p) <= E)%Q as HE.
  { destruct L as (P&_). pose proof (p_eps _ _ _ _ _ _ P). pose proof (p_par _ _ _ _ _ _ P) as (?&?&?).
    destruct (Qltb (aEps p - aDec p) (aFinal p)) eqn:El; [lra|].
    assert (~ (aEps p - aDec p < aFinal p)%Q) by (destruct (Qltb_spec (aEps p - aDec p) (aFinal p)); [discriminate|done]). lra. }
  wcbn. split_and!; try done.
  destruct (linv_search p L) as (m&z&I&_&_&J). pose proof L as (P&_&Hv&_).
  apply (linv_intro p _ m z L); wcbn; try done. apply P.
Qed.

Lemma new_iteration_spec p : linv p -> (aNew p = true -> aIter p + 1 < 65536) -> exists p', new_iteration e p = Ok p' /\ linv p' /\ same_rest p p' /\
  aNew p' = false /\ aIter p <= aIter p' <= aIter p + 1 /\ cSt (aC p') = cSt (aC p) /\ aSat p' = aSat p /\ aWrap p' = aWrap p /\ aEps p' = aEps p.
Proof.
  intros L Hw. unfold new_iteration. destruct (aNew p) eqn:En.
  2:{ exists p. split_and!; try done; lia. }
  destruct (linv_search p L) as (m&z&I&_&K&J). pose proof L as (P&_&Hv&_&Hgoal).
  pose proof (p_cnt _ _ _ _ _ _ P) as [Hc0 Hi0].
  wcbn. unfold BuildNewOPENList.
  assert (csize (cInc (aC p)) = length z) as -> by apply (ci_lrep _ _ _ _ _ _ _ _ _ _ I).
  destruct (build_spec G e fwd E (p_ge _ _ _ _ _ _ P) (aEps p) (aCall p) (aIter p) start z (aC p) m I Hv) as (c'&m'&Eb&I'&Es'&Kb).
  rewrite Eb. cbn [obind]. eexists. split; [reflexivity|].
  assert (u16 (aIter p + 1) = aIter p + 1) as Eu by (unfold u16; apply Z.mod_small; specialize (Hw eq_refl); lia). 
  assert (forall s, lk e fwd (aCall p) c' s = lk e fwd (aCall p) (aC p) s) as HL by (intros s; unfold lk; by rewrite Es').
  rewrite ?Eu. wcbn. split_and!; try done; try lia.
  2:{ specialize (Hw eq_refl). destruct (aIter p + 1 >=? 65536) eqn:Ew; [lia|]. apply orb_false_r. }
  apply (linv_intro p _ m' [] L); wcbn; rewrite ?Eu; try done.
  - lia.
  - apply P.
  - intros s a. rewrite Es'. apply Hv.
  - destruct I'. split; try done. intros s. specialize (ci_iter s). lia.
  - intros _. assert (forall s, sIter (lk e fwd (aCall p) c' s) <> aIter p + 1) as Hne.
    { intros s. pose proof (ci_iter _ _ _ _ _ _ _ _ _ _ I' s). lia. }
    split; try (intros; exfalso; by eapply Hne).
    + intros s _. apply Hne.
    + intros s Hs. cbn in Hs. by apply elem_of_nil in Hs.
  - intros Hr. apply Kb, K, Hr.
  - eapply (satinv_mono p); wcbn; try done.
    + unfold gcur, current. wcbn. by rewrite Es'.
    + unfold gg. wcbn. by rewrite HL.
  - intros s. by rewrite Es'.
Qed.

Lemma new_priorities_spec p : linv p -> aNew p = false -> exists p', new_priorities p = Ok p' /\ linv p' /\ same_rest p p' /\
  aNew p' = false /\ aReeval p' = false /\ aIter p' = aIter p /\ cSt (aC p') = cSt (aC p) /\ aSat p' = aSat p /\ aWrap p' = aWrap p /\ aEps p' = aEps p.
Proof.
  intros L Hn. unfold new_priorities. destruct (aReeval p) eqn:Er.
  2:{ exists p. split_and!; try done; lia. }
  destruct (linv_search p L) as (m&z&I&II&K&J). pose proof L as (P&_&Hv&_&Hgoal).
  destruct (fvals_spec G e fwd (aEps p) (aCall p) (aIter p) start (aC p) m z I Hv) as (c'&m'&Ef&I'&K'&Es'&Hm'&_).
  rewrite Ef. cbn [obind]. eexists. split; [reflexivity|]. wcbn. split_and!; try done.
  assert (forall s, lk e fwd (aCall p) c' s = lk e fwd (aCall p) (aC p) s) as HL by (intros s; unfold lk; by rewrite Es').
  apply (linv_intro p _ m' z L); wcbn; try done; try apply P.
  - intros s a. rewrite Es'. apply Hv.
  - intros _. destruct (II Hn). split.
    + intros s. rewrite Hm', HL. auto.
    + intros s. rewrite HL. auto.
    + intros s. rewrite HL. auto.
    + intros Hcon s C. rewrite HL. auto.
  - eapply (satinv_mono p); wcbn; try done.
    + unfold gcur, current. wcbn. by rewrite Es'.
    + unfold gg. wcbn. by rewrite HL.
  - intros s. by rewrite Es'.
Qed.

Definition after_improve (p : ara) (r : Z) (c : core) : ara :=
  if r =? 1 then with_sat (with_core p c) (aEps p) else with_core p c.
Lemma improve_spec clk p n : linv p -> aNew p = false -> aReeval p = false ->
  exists r c' n', ImprovePath e (aFwd p) clk (aEps p) (aIter p) (aCall p) (aGoal p) (aC p) n = Ok (r, c', n') /\
    linv (after_improve p r c') /\ gcur (after_improve p r c') /\ (n <= n')%nat /\ gg (after_improve p r c') <= gg p /\
    ((r = 1 /\ gg (after_improve p r c') < INFINITECOST) \/
     (r = 0 /\ gg (after_improve p r c') = INFINITECOST /\ (con = true -> forall C, sr G (inflate (aEps p)) start goal C -> INFINITECOST <= C)) \/
     (r = 2 /\ exists j, (n <= j < n')%nat /\ clk j = false)).
Proof.
  intros L Hn Hr. destruct (linv_search p L) as (m&z&I&II&K&J). pose proof L as (P&_&Hv&_&Hgoal).
  rewrite Hgoal, (p_fwd _ _ _ _ _ _ P).
  assert (sees fwd con G e (Some goal)) as Hse by (rewrite <- Hgoal; apply P).
  destruct (ImprovePath_spec G e fwd con E (p_ge _ _ _ _ _ _ P) clk (aEps p) (aCall p) (aIter p) start goal (aC p) m z n)
    as (r&c'&m'&z'&n'&Ei&I'&II'&K'&Hv'&M'&Hcur&Hnn&Hres);
    [apply (p_eps _ _ _ _ _ _ P)|apply (p_cnt _ _ _ _ _ _ P)|apply (p_cnt _ _ _ _ _ _ P)|done|done|by apply II|by apply K|done|by apply (p_goal _ _ _ _ _ _ P)|].
  exists r, c', n'. split; [done|].
  assert (forall q, sG (lk e fwd (aCall q) (aC q) goal) = gg q) as Hgg by done.
  assert (aC (after_improve p r c') = c' /\ same_rest p (after_improve p r c') /\ aIter (after_improve p r c') = aIter p /\
    aEps (after_improve p r c') = aEps p /\ aNew (after_improve p r c') = false /\ aReeval (after_improve p r c') = false /\
    aSat (after_improve p r c') = (if r =? 1 then aEps p else aSat p)) as (E1&E2&E3&E4&E5&E6&E7).
  { unfold after_improve. destruct (r =? 1); wcbn; split_and!; done. }
  pose proof E2 as (F1&F2&_).
  assert (gg (after_improve p r c') = sG (lk e fwd (aCall p) c' goal)) as Eg by (unfold gg; by rewrite F1, E1).
  assert (gg (after_improve p r c') <= gg p) as Hle by (rewrite Eg; apply M').
  assert (gcur (after_improve p r c')) as Hcur' by (unfold gcur; by rewrite F1, E1).
  split_and!; try done.
  - apply (linv_intro p _ m' z' L); rewrite ?E1, ?E3, ?E4, ?E5, ?F1; try done; try apply P.
    + destruct (decide (r = 1)) as [->|Hr1].
      * right. exists goal. rewrite F1, E1, E7. cbn [Z.eqb]. split_and!; [congruence|done|].
        intros Hcon C HC. eapply (goal_bound G e fwd con E (p_ge _ _ _ _ _ _ P)); try done; try apply P.
        destruct Hres as [(_&_&?)|[(?&_)|(?&_)]]; done.
      * apply (satinv_mono p); try done; [congruence|]. rewrite E7. destruct (r =? 1) eqn:E0; [lia|done].
    + apply M'.
  - rewrite Eg. destruct Hres as [(->&?&_)|[(->&Hinf&Hd)|(->&?)]]; [by left|right; left|by right; right].
    split_and!; [done|done|]. intros Hcon C HC. rewrite <- Hinf. eapply (goal_bound G e fwd con E (p_ge _ _ _ _ _ _ P)); try done; apply P.
Qed.

(** One pass through the loop body. *)
Definition body (clk : nat -> bool) (b : bool) (p : ara) (n : nat) : ares (Z * ara * nat) :=
  do p <- new_iteration e (eps_step p b);
  do p <- new_priorities p;
  do r <- ImprovePath e (aFwd p) clk (aEps p) (aIter p) (aCall p) (aGoal p) (aC p) n;
  Ok (r.1.1, after_improve p r.1.1 r.1.2, r.2).
Lemma search_loop_eq fuel clk b p n : search_loop (S fuel) e clk b p n =
  if Qltb (aFinal p) (aSat p) then
    if clk n then
      do r <- body clk b p (S n);
      if b then Ok (r.1.2, r.2)
      else match aGoal r.1.2 with
           | None => UB
           | Some g => do ga <- rdst (aC r.1.2) g; if sG ga =? INFINITECOST then Ok (r.1.2, r.2) else search_loop fuel e clk b r.1.2 r.2
           end
    else Ok (p, S n)
  else Ok (p, n).
Proof.
  cbn [search_loop]. destruct (Qltb (aFinal p) (aSat p)); [|done]. destruct (clk n); [|done]. unfold body.
  destruct (new_iteration e (eps_step p b)) as [p1| | |]; cbn [obind]; try done.
  destruct (new_priorities p1) as [p2| | |]; cbn [obind]; try done.
  destruct (ImprovePath e (aFwd p2) clk (aEps p2) (aIter p2) (aCall p2) (aGoal p2) (aC p2) (S n)) as [[[r c] n']| | |]; cbn [obind fst snd]; try done.
Qed.
Lemma body_spec clk b p n : linv p -> (aNew (eps_step p b) = true -> aIter p + 1 < 65536) ->
  exists r p' n', body clk b p n = Ok (r, p', n') /\ linv p' /\ gcur p' /\ same_rest p p' /\ (n <= n')%nat /\ gg p' <= gg p /\
    aIter p <= aIter p' <= aIter p + 1 /\ aWrap p' = aWrap p /\ aEps p' = aEps (eps_step p b) /\ aSat p' = (if r =? 1 then aEps p' else aSat p) /\
    ((r = 1 /\ gg p' < INFINITECOST) \/
     (r = 0 /\ gg p' = INFINITECOST /\ (con = true -> forall C, sr G (inflate (aEps p')) start goal C -> INFINITECOST <= C)) \/
     (r = 2 /\ exists j, (n <= j < n')%nat /\ clk j = false)).
Proof.
  intros L Hw. unfold body.
  destruct (eps_step_spec p b L) as (L1&S1&I1&C1&T1&W1). set (p1 := eps_step p b) in *. clearbody p1.
  destruct (new_iteration_spec p1 L1) as (p2&E2&L2&S2&N2&I2&C2&T2&W2&P2). { rewrite I1. auto. }
  rewrite E2. cbn [obind].
  destruct (new_priorities_spec p2 L2 N2) as (p3&E3&L3&S3&N3&R3&I3&C3&T3&W3&P3). rewrite E3. cbn [obind].
  destruct (improve_spec clk p3 n L3 N3 R3) as (r&c'&n'&Ei&L4&Hcur&Hn&Hg&Hres). rewrite Ei. cbn [obind fst snd].
  exists r, (after_improve p3 r c'), n'.
  assert (same_rest p3 (after_improve p3 r c') /\ aIter (after_improve p3 r c') = aIter p3 /\ aWrap (after_improve p3 r c') = aWrap p3 /\
    aEps (after_improve p3 r c') = aEps p3 /\ aSat (after_improve p3 r c') = (if r =? 1 then aEps p3 else aSat p3)) as (S4&I4&W4&P4&T4).
  { unfold after_improve. destruct (r =? 1); wcbn; split_and!; done. }
  assert (same_rest p p3) as S03 by (eapply same_rest_trans; [exact S1|]; by eapply same_rest_trans).
  assert (gg p3 = gg p) as Eg.
  { unfold gg, lk. pose proof S03 as (->&_). by rewrite C3, C2, C1. }
  split_and!; try done; try lia; try congruence.
  - by eapply same_rest_trans.
  - rewrite T4, P4. destruct (r =? 1); [done|]. congruence.
  - rewrite P4. destruct Hres as [?|[?|?]]; auto.
Qed.
End loop.
