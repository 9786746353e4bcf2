(** A failed search that started from scratch: the bound with the eps values really used. *)
From Coq Require Import ZifyBool ZifyNat QArith Qround Lqa.
From Verif Require Import Base KeyModel HeapModel HeapProofs ListModel ListProofs AngleModel AngleProofs AraModel AraSpec AraProofs AraProofs2 AraPath AraProofs3 AraProofs4 AraProofs5 AraProofs6.
Local Open Scope Z_scope.

Lemma reinit_sat e p p' : ReInitializeSearchStateSpace e p = Ok p' -> aSat p' = INFQ.
Proof.
  unfold ReInitializeSearchStateSpace. wcbn. intros HE. apply obind_ok in HE as (h&_&HE). apply obind_ok in HE as (l&_&HE). wcbn.
  destruct (aStart p) as [s|] eqn:Es, (aGoal p) as [g|] eqn:Eg; try done.
  apply obind_ok in HE as (c&_&HE). apply obind_ok in HE as (a&_&HE). apply obind_ok in HE as (c'&_&HE). apply obind_ok in HE as (a'&_&HE).
  apply obind_ok in HE as (h'&_&[= <-]). wcbn. done.
Qed.

Section fail.
Context (fwd con : bool) (E : Q) (G : nat -> list (nat * Z)) (e : aenv).
Notation linv := (linv fwd con E G e).

Lemma eps_step_le p b B : (0 <= aDec p)%Q -> (aEps p <= B)%Q -> (aFinal p <= B)%Q -> (aEps (eps_step p b) <= B)%Q.
Proof.
  intros H1 H2 H3. unfold eps_step. destruct (_ && _); [|done]. wcbn. destruct (Qltb _ _); [done|lra].
Qed.
Lemma loop_fail s g clk b B : (forall i, clk i = true) -> forall fuel p n p' n', linv s g p -> search_loop fuel e clk b p n = Ok (p', n') -> aWrap p' = false ->
  (aEps p <= B)%Q -> (aFinal p <= B)%Q -> (aSat p <= B)%Q \/ aSat p = INFQ ->
  gg fwd e g p' = INFINITECOST -> exists ep, (ep <= B)%Q /\ no_cheap con G s g ep.
Proof.
  intros Ht. induction fuel as [|fuel IH]; intros p n p' n' L; [done|]. rewrite search_loop_eq.
  pose proof L as (P&_&Hv&Hs&Hgoal). intros HE Hw HB1 HB2 HB3.
  destruct (Qltb (aFinal p) (aSat p)) eqn:Esat.
  2:{ injection HE as <- <-. destruct (linv_search _ _ _ _ _ _ _ p L) as (m&z&I&_&_&J).
      assert (~ (aFinal p < aSat p)%Q) as Hns by (destruct (Qltb_spec (aFinal p) (aSat p)); [discriminate|done]).
      pose proof (p_par _ _ _ _ _ _ P) as (_&?&_). pose proof (p_E _ _ _ _ _ _ P).
      destruct J as [J|(g'&Hg&Hc&Hb)]. { rewrite J in Hns. exfalso. apply Hns. lra. }
      rewrite Hgoal in Hg. injection Hg as <-.
      intros Hinf. exists (aSat p). split; [lra|]. intros Hcon C HC. specialize (Hb Hcon C HC). unfold gg in Hinf. lia. }
  rewrite Ht in HE. apply obind_ok in HE as ([[r p1] n1]&E1&HE). cbn [fst snd] in HE.
  destruct (body_rest _ _ _ _ _ _ _ _ E1) as (S1&W1).
  assert (aWrap p1 = false) as Hw1.
  { destruct b; [by injection HE as -> ->|]. destruct (aGoal p1); [|done]. apply obind_ok in HE as (ga&_&HE).
    destruct (sG ga =? INFINITECOST); [by injection HE as -> ->|]. by destruct (loop_rest _ _ _ _ _ _ _ _ HE) as (_&W); auto. }
  destruct (W1 Hw1) as [Hw0 Hiter].
  destruct (body_spec fwd con E G e s g clk b p (S n) L Hiter) as (r'&p1'&n1'&E1'&L1&Hcur&_&Hn&Hle&Hi&_&Heps&Hsat&Hres).
  rewrite E1 in E1'. injection E1' as <- <- <-.
  assert (aEps p1 <= B)%Q as HB4 by (rewrite Heps; apply eps_step_le; [apply (p_par _ _ _ _ _ _ P)|done..]).
  assert (gg fwd e g p1 = INFINITECOST -> exists ep, (ep <= B)%Q /\ no_cheap con G s g ep) as Hfail.
  { intros Hinf. destruct Hres as [(_&?)|[(_&_&Hnc)|(_&j&_&Hj)]]; [lia| |by rewrite Ht in Hj].
    exists (aEps p1). done. }
  destruct b.
  - injection HE as <- <-. done.
  - pose proof L1 as (_&_&_&_&Hg1). rewrite Hg1 in HE. destruct (gcur_rd fwd G e g p1 Hcur) as (ga&Ega&Hga). rewrite Ega in HE. cbn [obind] in HE.
    rewrite Hga in HE. destruct (gg fwd e g p1 =? INFINITECOST) eqn:Einf.
    + injection HE as <- <-. done.
    + apply (IH p1 n1 p' n' L1 HE Hw); try done.
      * destruct S1 as (_&_&_&_&_&_&_&_&->). done.
      * rewrite Hsat. destruct (r =? 1); [by left|done].
Qed.

Lemma Search_fail fuel clk p path cost p' B : pinv fwd con E G e p -> (forall i, clk i = true) -> aReinit p = true ->
  Search fuel e clk p = Ok (false, path, cost, p') -> aWrap p' = false -> (aInit p <= B)%Q -> (aFinal p <= B)%Q ->
  exists s g ep, aStart p = Some s /\ aGoal p = Some g /\ (ep <= B)%Q /\ no_cheap con G s g ep.
Proof.
  rewrite Search_eq. intros P Ht Hre HE Hw HB1 HB2. apply obind_ok in HE as (p1&E1&HE). apply obind_ok in HE as ([p2 n2]&E2&HE). cbn [fst] in HE.
  destruct (prep_rest _ _ _ E1) as (_&_&_&_&_&_&Hfin&W1&Hset). destruct (loop_rest _ _ _ _ _ _ _ _ E2) as (S2&W2).
  assert (aWrap p2 = false) as Hw2 by (destruct (finish_rest _ _ _ _ HE) as [->|(c'&->&_)]; wcbn; done).
  destruct (prep_spec fwd con E G e p P) as (p1'&s&g&E1'&Es&Eg&L1&_&Hprep).
  { intros Hr. split; [by apply W1; auto|]. destruct (Hset Hr). done. }
  rewrite E1 in E1'. injection E1' as <-. rewrite Hre in Hprep. destruct Hprep as (_&Hep&_).
  destruct (loop_spec fwd con E G e s g clk _ fuel p1 0 p2 n2 L1 E2 Hw2) as (L2&_&Hcur&_). pose proof L2 as (P2&_&_&_&Hg2).
  specialize (Hcur (or_introl (Ht 0%nat))). destruct (gcur_rd fwd G e g p2 Hcur) as (ga&Ega&Hga).
  unfold finish in HE. rewrite Hg2, Ega in HE. cbn [obind] in HE. rewrite Hga in HE.
  destruct (gg fwd e g p2 =? INFINITECOST) eqn:Einf; [|apply obind_ok in HE as (?&_&?); discriminate].
  destruct (loop_fail s g clk _ B Ht fuel p1 0 p2 n2 L1 E2 Hw2) as (ep&H1&H2); try done.
  - by rewrite Hep.
  - by rewrite Hfin.
  - right. unfold prep in E1. destruct (aReeval p); wcbn; rewrite Hre in E1; by eapply reinit_sat.
  - lia.
  - exists s, g, ep. done.
Qed.
End fail.
