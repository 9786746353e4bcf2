(** The loop of AD*'s Search, and Search. *)
From Coq Require Import ZifyBool ZifyNat QArith Qround Lqa.
From Verif Require Import Base KeyModel HeapModel HeapProofs ListModel ListProofs ListSpec AngleModel AngleProofs AraModel AraSpec AraProofs AraPath AraProofs3 AraProofs4 AdModel AdSpec AdAbs AdProofs AdProofs2 AdProofs3 AdPath AdProofs4 AdProofs5.
Local Open Scope Z_scope.

(** * What no operation changes, and when the ghost flag stays clear *)
Lemma first_iter_rest p : same_rest p (ad_first_iter p) /\ (aWrap (ad_first_iter p) = false -> aWrap p = false).
Proof. unfold ad_first_iter. destruct (aIter p =? 0); [|done]. wcbn. split; [done|]. intros Hw. by apply orb_false_iff in Hw as [? _]. Qed.
Lemma eps_step_rest p b : same_rest p (ad_eps_step p b) /\ (aWrap (ad_eps_step p b) = false -> aWrap p = false).
Proof. unfold ad_eps_step. destruct (Qltb _ _ && _); [|done]. wcbn. split; [done|]. intros Hw. by apply orb_false_iff in Hw as [? _]. Qed.
Lemma rebuild_rest p p' : ad_rebuild p = Ok p' -> same_rest p p' /\ aWrap p' = aWrap p.
Proof. unfold ad_rebuild. destruct (aNew p); [|by intros [= <-]]. intros HE. apply obind_ok in HE as (c&_&[= <-]). wcbn. done. Qed.
Lemma reprio_rest p p' : ad_reprio p = Ok p' -> same_rest p p' /\ aWrap p' = aWrap p.
Proof. unfold ad_reprio. destruct (aReeval p); [|by intros [= <-]]. intros HE. apply obind_ok in HE as (c&_&[= <-]). wcbn. done. Qed.
Lemma after_improve_rest p r c : same_rest p (after_improve p r c) /\ aWrap (after_improve p r c) = aWrap p.
Proof. unfold after_improve. destruct (r =? 1); wcbn; done. Qed.
Lemma body_rest e clk b p n r p' n' : dbody e clk b p n = Ok (r, p', n') -> same_rest p p' /\
  (aWrap p' = false -> aWrap p = false /\ aWrap (ad_eps_step (ad_first_iter p) b) = false).
Proof.
  unfold dbody. intros HE. destruct (first_iter_rest p) as (S0&W0). destruct (eps_step_rest (ad_first_iter p) b) as (S1&W1).
  apply obind_ok in HE as (p1&E1&HE). apply obind_ok in HE as (p2&E2&HE). apply obind_ok in HE as ([[r' c'] n'']&_&[= <- <- <-]).
  cbn [fst snd]. destruct (rebuild_rest _ _ E1) as (S2&W2). destruct (reprio_rest _ _ E2) as (S3&W3).
  destruct (after_improve_rest p2 r' c') as (S4&W4). split.
  - eapply same_rest_trans; [exact S0|]. eapply same_rest_trans; [exact S1|]. eapply same_rest_trans; [exact S2|]. eapply same_rest_trans; [exact S3|exact S4].
  - rewrite W4, W3, W2. auto.
Qed.
Lemma loop_rest e clk b : forall fuel p n p' n', ad_search_loop fuel e clk b p n = Ok (p', n') -> same_rest p p' /\ (aWrap p' = false -> aWrap p = false).
Proof.
  induction fuel as [|fuel IH]; intros p n p' n'; [done|]. rewrite search_loop_eq.
  destruct (Qltb (aFinal p) (aSat p)); [|by intros [= <- _]]. destruct (clk n); [|by intros [= <- _]].
  intros HE. apply obind_ok in HE as ([[r p1] n1]&E1&HE). cbn [fst snd] in HE.
  destruct (body_rest _ _ _ _ _ _ _ _ E1) as (S1&W1). destruct b.
  - injection HE as <- _. split; [done|]. intros Hw. by apply W1.
  - destruct (aGoal p1); [|done]. apply obind_ok in HE as (ga&_&HE). destruct (sG ga =? INFINITECOST).
    + injection HE as <- _. split; [done|]. intros Hw. by apply W1.
    + destruct (IH _ _ _ _ HE) as (S2&W2). split; [by eapply same_rest_trans|]. intros Hw. by apply W1, W2.
Qed.

Section loop.
Context (fwd abs : bool) (E : Q) (G : nat -> list (nat * Z)) (e : aenv) (start goal : nat).
Notation linv := (dlinv fwd abs E G e start goal).
Notation gg := (gg fwd e goal).
Notation gcur := (gcur goal).
Notation no_cheap := (no_cheap G start goal).
Lemma gcur_rd p : gcur p -> exists ga, dlift DBadState (rdst (aC p) goal) = Ok ga /\ sG ga = gg p.
Proof.
  intros (a&Ea&Ec). exists a. unfold rdst. rewrite Ea. split; [done|]. unfold AraProofs4.gg, lk. rewrite Ea.
  by replace (sCall a =? aCall p) with true by lia.
Qed.
(** An eps for which the search is satisfied. *)
Lemma sat_facts p : linv p -> aSat p <> INFQ -> (1 <= aSat p <= E)%Q /\ gcur p /\ gg p < INFINITECOST /\
  safe G fwd start (lk e fwd (aCall p) (aC p)) goal /\ forall C, sr G (inflate (aSat p)) start goal C -> gg p <= C.
Proof.
  intros L Hs. destruct (linv_search _ _ _ _ _ _ _ p L) as (m&z&Q). destruct (linv_env _ _ _ _ _ _ _ p L) as (A1&A2&A3&A4&A5&A6).
  destruct (q_sat _ _ _ _ _ _ _ _ _ _ Q) as [?|(T1&T2&T3&T4&T5)]; [done|]. pose proof (q_vok _ _ _ _ _ _ _ _ _ _ Q) as V.
  pose proof (safe_nu _ _ _ _ _ V T3). split_and!; try done; try lra; [by eapply safe_fin|]. intros C HC. destruct (T4 goal C HC) as [?|Hx].
  - unfold AraProofs4.gg. lia.
  - rewrite (hh_goal G e fwd abs E start goal A1 A2 A3 A4 A5 A6 (aSat p) T1) in Hx. unfold AraProofs4.gg. lia.
Qed.
Lemma sat_low p : linv p -> Qltb (aFinal p) (aSat p) = false -> aSat p <> INFQ.
Proof.
  intros L Esat. pose proof L as (P&_). assert (~ (aFinal p < aSat p)%Q) as Hns by (destruct (Qltb_spec (aFinal p) (aSat p)); [discriminate|done]).
  pose proof (p_par _ _ _ _ _ _ P) as (_&?&_). pose proof (p_E _ _ _ _ _ _ P). intros J. rewrite J in Hns. apply Hns. lra.
Qed.
(** Everything about a terminating loop. *)
Lemma loop_spec clk b : forall fuel p n p' n', linv p -> ad_search_loop fuel e clk b p n = Ok (p', n') -> aWrap p' = false ->
  linv p' /\ ((forall i, clk i = true) -> aSat p' <> INFQ \/ exists ep, (ep <= E)%Q /\ no_cheap ep).
Proof.
  induction fuel as [|fuel IH]; intros p n p' n' L; [done|]. rewrite search_loop_eq.
  destruct (Qltb (aFinal p) (aSat p)) eqn:Esat.
  2:{ intros [= <- <-] Hw. split; [done|]. intros _. left. by apply sat_low. }
  destruct (clk n) eqn:En.
  2:{ intros [= <- <-] Hw. split; [done|]. intros Ht. rewrite Ht in En. done. }
  intros HE Hw. apply obind_ok in HE as ([[r p1] n1]&E1&HE). cbn [fst snd] in HE.
  destruct (body_rest _ _ _ _ _ _ _ _ E1) as (S1&W1).
  assert (aWrap p1 = false) as Hw1.
  { destruct b; [by injection HE as -> ->|]. destruct (aGoal p1); [|done]. apply obind_ok in HE as (ga&_&HE).
    destruct (sG ga =? INFINITECOST); [by injection HE as -> ->|]. by destruct (loop_rest _ _ _ _ _ _ _ _ HE) as (_&W); auto. }
  destruct (W1 Hw1) as [Hw0 Hiter].
  destruct (body_spec fwd abs E G e start goal clk b p (S n) L (or_introl Hiter)) as (r'&p1'&n1'&E1'&L1&Hcur&_&Hn&Hi&_&Heps&Hsat&Hres).
  rewrite E1 in E1'. injection E1' as <- <- <-.
  pose proof L1 as (P1&_&_&_&Hg1). pose proof (p_eps _ _ _ _ _ _ P1) as He1. pose proof (p_E _ _ _ _ _ _ P1) as HE1.
  assert (r = 1 -> aSat p1 <> INFQ) as Hs1. { intros ->. cbn in Hsat. rewrite Hsat. intros Hx. rewrite Hx in He1. lra. }
  assert ((forall i, clk i = true) -> b = true \/ gg p1 = INFINITECOST -> aSat p1 <> INFQ \/ exists ep, (ep <= E)%Q /\ no_cheap ep) as Hfail.
  { intros Ht _. destruct Hres as [(Hr&_)|[(_&_&Hnc)|(_&j&_&Hj)]]; [left; auto| |by rewrite Ht in Hj].
    right. exists (aEps p1). split; [apply He1|done]. }
  destruct b.
  - injection HE as <- <-. auto.
  - rewrite Hg1 in HE. destruct (gcur_rd p1 Hcur) as (ga&Ega&Hga). rewrite Ega in HE. cbn [obind] in HE.
    rewrite Hga in HE. destruct (gg p1 =? INFINITECOST) eqn:Ei.
    + injection HE as <- <-. split; [done|]. intros Ht. apply Hfail; [done|right; lia].
    + by apply (IH p1 n1 p' n').
Qed.
(** The loop never fails (as long as no counter overflows) ... *)
Lemma loop_total clk b : forall fuel p n, linv p -> aIter p + 2 * Z.of_nat fuel < 65536 ->
  ad_search_loop fuel e clk b p n = OOF \/ exists p' n', ad_search_loop fuel e clk b p n = Ok (p', n') /\ aWrap p' = aWrap p /\ linv p'.
Proof.
  induction fuel as [|fuel IH]; intros p n L Hw; [by left|]. rewrite search_loop_eq.
  destruct (Qltb (aFinal p) (aSat p)) eqn:Esat.
  2:{ right. exists p, n. split_and!; done. }
  destruct (clk n) eqn:En.
  2:{ right. exists p, (S n). split_and!; done. }
  destruct (body_spec fwd abs E G e start goal clk b p (S n) L) as (r&p1&n1&E1&L1&Hcur&_&Hn&Hi&Ww&_); [right; lia|].
  rewrite E1. cbn [obind fst snd]. destruct b. { right. exists p1, n1. done. }
  pose proof L1 as (_&_&_&_&Hg1). rewrite Hg1. destruct (gcur_rd p1 Hcur) as (ga&Ega&Hga). rewrite Ega. cbn [obind].
  destruct (sG ga =? INFINITECOST). { right. exists p1, n1. done. }
  destruct (IH p1 n1 L1) as [?|(p'&n'&?&?&?)]; [lia|by left|right]. exists p', n'. split_and!; try done; congruence.
Qed.
(** ... and ends when eps has come down. *)
Lemma loop_terminates clk b : (forall i j, (i <= j)%nat -> clk i = false -> clk j = false) ->
  forall k p n fuel, linv p -> (aSat p = aEps p \/ (exists j, (j <= n)%nat /\ clk j = false)) -> (0 < aDec p)%Q ->
  (aEps p - aFinal p <= inject_Z (Z.of_nat k) * aDec p)%Q -> (k < fuel)%nat -> aIter p + 2 * Z.of_nat fuel < 65536 ->
  ad_search_loop fuel e clk b p n <> OOF.
Proof.
  intros Hclk. induction k as [|k IH]; intros p n fuel L Hsat Hdec Hk Hf Hw; (destruct fuel as [|fuel]; [lia|]); rewrite search_loop_eq.
  - destruct (Qltb_spec (aFinal p) (aSat p)) as [Hlt|]; [|done]. destruct Hsat as [Hsat|(j&Hj&Ej)].
    + exfalso. rewrite Hsat in Hlt. change (inject_Z (Z.of_nat 0)) with 0%Q in Hk. lra.
    + by rewrite (Hclk j n Hj Ej).
  - destruct (Qltb (aFinal p) (aSat p)) eqn:Ef; [|done]. destruct (clk n) eqn:En; [|done].
    destruct Hsat as [Hsat|(j&Hj&Ej)]; [|by rewrite (Hclk j n Hj Ej) in En].
    destruct (body_spec fwd abs E G e start goal clk b p (S n) L) as (r&p1&n1&E1&L1&Hcur&Sr&Hn&Hi&Ww&Heps&Hsat1&Hres); [right; lia|].
    rewrite E1. cbn [obind fst snd]. destruct b; [done|].
    pose proof L1 as (_&_&_&_&Hg1). rewrite Hg1. destruct (gcur_rd p1 Hcur) as (ga&Ega&Hga). rewrite Ega. cbn [obind].
    destruct (sG ga =? INFINITECOST) eqn:Einf; [done|].
    pose proof Sr as (_&_&_&_&_&_&_&Ed&Efi).
    apply IH; try done; try lia.
    + destruct Hres as [(->&_)|[(_&?&_)|(_&j&Hj&Ej)]]; [by left|lia|right]. exists j. split; [lia|done].
    + by rewrite Ed.
    + rewrite Ed, Efi, Heps. unfold ad_eps_step. assert (Qltb (Qabs (aSat p - aEps p)) ERR_EPS = true) as ->.
      { destruct (Qltb_spec (Qabs (aSat p - aEps p)) ERR_EPS) as [|Hn0]; [done|]. exfalso. apply Hn0. rewrite Hsat.
        assert (aEps p - aEps p == 0)%Q as -> by ring. reflexivity. }
      cbn [andb negb]. wcbn. replace (Z.of_nat (S k)) with (Z.of_nat k + 1) in Hk by lia. rewrite inject_Z_plus in Hk. change (inject_Z 1) with 1%Q in Hk.
      destruct (Qltb_spec (aEps p - aDec p) (aFinal p)).
      * assert (0 <= inject_Z (Z.of_nat k) * aDec p)%Q by (apply Qmult_le_0_compat; [|lra]; unfold inject_Z, Qle; cbn; lia). lra.
      * lra.
Qed.
Lemma loop_terminates1 clk b : (forall i j, (i <= j)%nat -> clk i = false -> clk j = false) ->
  forall k p n fuel, linv p -> (0 < aDec p)%Q ->
  (aEps p - aFinal p <= inject_Z (Z.of_nat k) * aDec p)%Q -> (S k < fuel)%nat -> aIter p + 2 * Z.of_nat fuel < 65536 ->
  ad_search_loop fuel e clk b p n <> OOF.
Proof.
  intros Hclk k p n fuel L Hdec Hk Hf Hw. destruct fuel as [|fuel]; [lia|]. rewrite search_loop_eq.
  destruct (Qltb (aFinal p) (aSat p)) eqn:Ef; [|done]. destruct (clk n) eqn:En; [|done].
  destruct (body_spec fwd abs E G e start goal clk b p (S n) L) as (r&p1&n1&E1&L1&Hcur&Sr&Hn&Hi&Ww&Heps&Hsat1&Hres); [right; lia|].
  rewrite E1. cbn [obind fst snd]. destruct b; [done|].
  pose proof L1 as (_&_&_&_&Hg1). rewrite Hg1. destruct (gcur_rd p1 Hcur) as (ga&Ega&Hga). rewrite Ega. cbn [obind].
  destruct (sG ga =? INFINITECOST) eqn:Einf; [done|].
  pose proof Sr as (_&_&_&_&_&_&_&Ed&Efi).
  apply (loop_terminates clk false Hclk k); try done; try lia.
  - destruct Hres as [(->&_)|[(_&?&_)|(_&j&Hj&Ej)]]; [by left|lia|right]. exists j. split; [lia|done].
  - by rewrite Ed.
  - assert (0 <= inject_Z (Z.of_nat k) * aDec p)%Q by (apply Qmult_le_0_compat; [|lra]; unfold inject_Z, Qle; cbn; lia).
    rewrite Ed, Efi, Heps. unfold ad_eps_step. destruct (Qltb (Qabs (aSat p - aEps p)) ERR_EPS && negb false); [|done]. wcbn.
    destruct (Qltb_spec (aEps p - aDec p) (aFinal p)); lra.
Qed.
End loop.
