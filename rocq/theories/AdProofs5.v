(** One round of the main loop of AD*'s Search, and the loop. *)
From Coq Require Import ZifyBool ZifyNat QArith Qround Lqa.
From Verif Require Import Base KeyModel HeapModel HeapProofs ListModel ListProofs ListSpec AngleModel AngleProofs AraModel AraSpec AraProofs AraPath AraProofs3 AraProofs4 AdModel AdSpec AdAbs AdProofs AdProofs2 AdProofs3 AdPath AdProofs4.
Local Open Scope Z_scope.

Section loop.
Context (fwd abs : bool) (E : Q) (G : nat -> list (nat * Z)) (e : aenv) (start goal : nat).
Notation sst := (sst fwd abs E G e start goal).
Definition dlinv (p : ara) : Prop :=
  dpinv fwd abs E G e p /\ aReinit p = false /\ hvalid e fwd (aC p) /\ aStart p = Some start /\ aGoal p = Some goal.
Notation linv := dlinv.
Notation gg := (gg fwd e goal).
Notation gcur := (gcur goal).
Lemma linv_search p : linv p -> exists m z, sst p m z.
Proof.
  intros (P&Hr&Hv&Hs&Hg). destruct (p_search _ _ _ _ _ _ P Hr) as (s&g&m&z&Es&Eg&Q). rewrite Hs in Es. rewrite Hg in Eg.
  injection Es as <-. injection Eg as <-. eauto.
Qed.
Lemma linv_intro p p' m z : linv p -> same_rest p p' -> 0 <= aIter p' -> (1 <= aEps p' <= E)%Q -> hvalid e fwd (aC p') -> sst p' m z ->
  (forall s, is_Some (cSt (aC p) !! s) -> is_Some (cSt (aC p') !! s)) -> linv p'.
Proof.
  intros (P&Hr&_&Hs&Hg) (S1&S2&S3&S4&S5&S6&S7&S8&S9) Hi He Hv Q Hp. destruct P. pose proof (q_dat _ _ _ _ _ _ _ _ _ _ Q) as D.
  split_and!; try congruence; try done. split; try congruence; try done.
  - exists m, z. split_and!; try apply D. intros s Hs0. apply (da_cur _ _ _ _ _ _ _ _ _ D) in Hs0 as (a&Ea&_). eauto.
  - apply D.
  - lia.
  - intros s. rewrite S3. auto.
  - intros s. rewrite S2. auto.
  - intros _. exists start, goal, m, z. split_and!; try congruence; done.
Qed.

Lemma linv_env p : linv p -> good_env fwd E G e /\ (forall s, (abs = true -> s <> goal) -> snext e fwd s = G s) /\ prev_ok G e fwd start /\
  prev_in e fwd start /\ hcons G (heur fwd e) /\ heur fwd e goal = 0.
Proof.
  intros (P&_&_&Hs&Hg). pose proof (p_sees _ _ _ _ _ _ P) as S. rewrite Hs, Hg in S. split_and!.
  - apply P.
  - intros s Hx. apply (ds_next _ _ _ _ _ _ S). intros Ha [= ->]. by apply (Hx Ha).
  - intros t q w Ht. by apply (ds_prev _ _ _ _ _ _ S start).
  - intros t q w Ht Hin. apply (ds_prev _ _ _ _ _ _ S start eq_refl t q w Ht) in Hin. by apply (ds_ids _ _ _ _ _ _ S) in Hin.
  - intros s t w. apply (ds_cons _ _ _ _ _ _ S).
  - by apply (ds_zero _ _ _ _ _ _ S).
Qed.
Lemma first_iter_spec p : linv p -> linv (ad_first_iter p) /\ same_rest p (ad_first_iter p) /\ 0 < aIter (ad_first_iter p) /\
  aIter p <= aIter (ad_first_iter p) <= aIter p + 1 /\ aC (ad_first_iter p) = aC p /\ aSat (ad_first_iter p) = aSat p /\
  aEps (ad_first_iter p) = aEps p /\ aWrap (ad_first_iter p) = aWrap p.
Proof.
  intros L. pose proof L as (P&_&Hv&_). pose proof (p_cnt _ _ _ _ _ _ P) as [_ Hi]. unfold ad_first_iter. destruct (aIter p =? 0) eqn:E0.
  - assert (aIter p = 0) as Ei by lia. wcbn. rewrite Ei. change (u16 (0 + 1)) with 1. split_and!; try done; try lia.
    2:{ apply orb_false_r. }
    destruct (linv_search p L) as (m&z&Q). destruct (q_zero _ _ _ _ _ _ _ _ _ _ Q Ei) as (_&Hz&_).
    apply (linv_intro p _ m z L); wcbn; try done; [by rewrite Ei|apply P|].
    apply (sst_bump fwd abs E G e start goal goal p); wcbn; try done; [by rewrite Ei|by right|by right].
  - split_and!; try done; lia.
Qed.
Lemma eps_step_spec p b : linv p -> 0 < aIter p -> (aWrap (ad_eps_step p b) = false \/ aIter p + 1 < 65536) ->
  linv (ad_eps_step p b) /\ same_rest p (ad_eps_step p b) /\ aIter p <= aIter (ad_eps_step p b) <= aIter p + 1 /\
  aC (ad_eps_step p b) = aC p /\ aSat (ad_eps_step p b) = aSat p /\ aWrap (ad_eps_step p b) = aWrap p.
Proof.
  intros L Hi Hw. unfold ad_eps_step in *. destruct (Qltb (Qabs (aSat p - aEps p)) ERR_EPS && negb b); [|split_and!; try done; lia].
  assert (1 <= (if Qltb (aEps p - aDec p) (aFinal p) then aFinal p else aEps p - aDec p) <= E)%Q as HE.
  { destruct L as (P&_). pose proof (p_eps _ _ _ _ _ _ P). pose proof (p_par _ _ _ _ _ _ P) as (?&?&?).
    destruct (Qltb (aEps p - aDec p) (aFinal p)) eqn:El; [lra|].
    assert (~ (aEps p - aDec p < aFinal p)%Q) by (destruct (Qltb_spec (aEps p - aDec p) (aFinal p)); [discriminate|done]). lra. }
  wcbn. assert (aIter p + 1 < 65536) as Hb by (destruct Hw as [Hw|?]; [apply orb_false_iff in Hw as [_ ?]; lia|done]).
  assert (u16 (aIter p + 1) = aIter p + 1) as Eu by (unfold u16; apply Z.mod_small; lia). rewrite Eu.
  split_and!; try done; try lia.
  2:{ destruct (aIter p + 1 >=? 65536) eqn:Ew; [lia|]. apply orb_false_r. }
  destruct (linv_search p L) as (m&z&Q). pose proof L as (P&_&Hv&_).
  apply (linv_intro p _ m z L); wcbn; rewrite ?Eu; try done; [lia|].
  apply (sst_bump fwd abs E G e start goal goal p); wcbn; try done; [lia|by left|by right].
Qed.
Lemma rebuild_spec p : linv p -> 0 < aIter p -> exists p', ad_rebuild p = Ok p' /\ linv p' /\ same_rest p p' /\
  aNew p' = false /\ aIter p' = aIter p /\ cSt (aC p') = cSt (aC p) /\ aSat p' = aSat p /\ aWrap p' = aWrap p /\ aEps p' = aEps p.
Proof.
  intros L Hi. unfold ad_rebuild. destruct (aNew p) eqn:En.
  2:{ exists p. split_and!; done. }
  destruct (linv_search p L) as (m&z&Q). pose proof L as (P&_&Hv&_&Hgoal). destruct (linv_env p L) as (A1&A2&A3&A4&A5&A6). pose proof Q as [D V B I Z N C K A T]. rewrite En in *.
  unfold ad_build. assert (csize (cInc (aC p)) = length z) as -> by apply (da_lrep _ _ _ _ _ _ _ _ _ D).
  destruct (build_spec G e fwd abs E start goal A1 A2 A3 A4 A5 A6 (aEps p) (aCall p) (aIter p) z (aC p) m D (N eq_refl)) as (c'&m'&Eb&D'&Es'&Kb).
  rewrite Eb. cbn [obind]. eexists. split; [reflexivity|].
  assert (forall s, lk e fwd (aCall p) c' s = lk e fwd (aCall p) (aC p) s) as HL by (intros s; unfold lk; by rewrite Es').
  assert (forall s, current (aCall p) (aC p) s -> current (aCall p) c' s) as HC by (intros s; unfold current; by rewrite Es').
  wcbn. split_and!; try done.
  apply (linv_intro p _ m' [] L); wcbn; try done; [apply P..| | |].
  - intros s a. rewrite Es'. apply Hv.
  - split; wcbn; try done.
    + by eapply vok_ext.
    + by eapply bok_ext.
    + by eapply iok_ext.
    + lia.
    + intros _ _ x. rewrite HL. intros Hx. by destruct (N eq_refl x).
    + auto.
    + rewrite HL. done.
    + destruct T as [?|(T1&T2&T3)]; [by left|right]. split; [done|]. split; [auto|]. eapply (satv_sim G fwd); [|done|exact T3].
      intros s. rewrite HL. done.
  - intros s. by rewrite Es'.
Qed.
Lemma reprio_spec p : linv p -> aNew p = false -> exists p', ad_reprio p = Ok p' /\ linv p' /\ same_rest p p' /\
  aNew p' = false /\ aReeval p' = false /\ aIter p' = aIter p /\ cSt (aC p') = cSt (aC p) /\ aSat p' = aSat p /\ aWrap p' = aWrap p /\ aEps p' = aEps p.
Proof.
  intros L Hn. unfold ad_reprio. destruct (aReeval p) eqn:Er.
  2:{ exists p. split_and!; try done; lia. }
  destruct (linv_search p L) as (m&z&Q). pose proof L as (P&_&Hv&_&Hgoal). destruct (linv_env p L) as (A1&A2&A3&A4&A5&A6). pose proof Q as [D V B I Z N C K A T].
  destruct (fvals_spec G e fwd abs E start goal A1 A2 A3 A4 A5 A6 _ (aEps p) (aCall p) (aIter p) (aC p) m z D) as (c'&m'&Ef&D'&K'&Es').
  rewrite Ef. cbn [obind]. eexists. split; [reflexivity|]. wcbn. split_and!; try done.
  assert (forall s, lk e fwd (aCall p) c' s = lk e fwd (aCall p) (aC p) s) as HL by (intros s; unfold lk; by rewrite Es').
  assert (forall s, current (aCall p) (aC p) s -> current (aCall p) c' s) as HC by (intros s; unfold current; by rewrite Es').
  apply (linv_intro p _ m' z L); wcbn; try done; try apply P.
  - intros s a. rewrite Es'. apply Hv.
  - split; wcbn; try done.
    + by eapply vok_ext.
    + by eapply bok_ext.
    + by eapply iok_ext.
    + intros Hi. destruct (Z Hi) as (?&?&HZ). split; [done|]. split; [done|]. intros x. rewrite HL. auto.
    + congruence.
    + intros H1 H2 x. rewrite HL. intros Hx. destruct (C H1 H2 x Hx). split; [|done]. by eapply safe_ext.
    + rewrite HL. done.
    + destruct T as [?|(T1&T2&T3)]; [by left|right]. split; [done|]. split; [auto|]. eapply (satv_sim G fwd); [|done|exact T3].
      intros s. rewrite HL. done.
  - intros s. by rewrite Es'.
Qed.

(** A failure verdict. *)
Definition no_cheap (ep : Q) : Prop := forall C, sr G (inflate ep) start goal C -> INFINITECOST <= C.
Lemma compute_spec clk p n : linv p -> 0 < aIter p -> aNew p = false -> aReeval p = false ->
  exists r c' n', ComputePath e (aFwd p) clk (aEps p) (aIter p) (aCall p) (aGoal p) (aC p) n = Ok (r, c', n') /\
    linv (after_improve p r c') /\ gcur (after_improve p r c') /\ (n <= n')%nat /\
    ((r = 1 /\ gg (after_improve p r c') < INFINITECOST) \/
     (r <> 1 /\ gg (after_improve p r c') = INFINITECOST /\ no_cheap (aEps p)) \/
     (r = 2 /\ exists j, (n <= j < n')%nat /\ clk j = false)).
Proof.
  intros L Hi Hn Hr. destruct (linv_search p L) as (m&z&Q). pose proof L as (P&_&Hv&_&Hgoal). destruct (linv_env p L) as (A1&A2&A3&A4&A5&A6).
  rewrite Hgoal, (p_fwd _ _ _ _ _ _ P). pose proof Q as [D V B I Z N C K A T]. rewrite Hn, Hr in *.
  pose proof (p_cnt _ _ _ _ _ _ P) as [Hc0 _].
  assert (sinv G e fwd start (aEps p) (aCall p) (aIter p) (aC p) m z) as SI.
  { split; try done; [by apply K| |]; intros x; intros; by apply (C eq_refl Hi x). }
  destruct (ComputePath_spec G e fwd abs E start goal A1 A2 A3 A4 A5 A6 (aEps p) (p_eps _ _ _ _ _ _ P) clk (aCall p) (aIter p) (aC p) m z n Hi Hc0 SI
    (p_goal _ _ _ _ _ _ P goal Hgoal) A) as (r&c'&m'&z'&n'&Ei&SI'&X&Hcur&Hnn&Hres).
  exists r, c', n'. split; [done|].
  assert (aC (after_improve p r c') = c' /\ same_rest p (after_improve p r c') /\ aIter (after_improve p r c') = aIter p /\
    aEps (after_improve p r c') = aEps p /\ aNew (after_improve p r c') = false /\ aReeval (after_improve p r c') = false /\
    aSat (after_improve p r c') = (if r =? 1 then aEps p else aSat p)) as (E1&E2&E3&E4&E5&E6&E7).
  { unfold after_improve. destruct (r =? 1); wcbn; split_and!; done. }
  pose proof E2 as (F1&F2&_).
  assert (gg (after_improve p r c') = sG (lk e fwd (aCall p) c' goal)) as Eg by (unfold AraProofs4.gg; by rewrite F1, E1).
  assert (gcur (after_improve p r c')) as Hcur' by (unfold AraProofs4.gcur; by rewrite F1, E1).
  destruct X as (X1&X2&X3&X4&X5). pose proof SI' as [D' K' Hv' V' B' I' S' Bn'].
  split_and!; try done.
  - apply (linv_intro p _ m' z' L); rewrite ?E1, ?E3, ?E4; try done; try apply P.
    split; rewrite ?F1, ?E1, ?E3, ?E4, ?E5, ?E6, ?E7; cbn [negb]; try done.
    + lia.
    + intros _ _ x Hx. split; [by apply S'|]. intros C'. by apply Bn'.
    + intros Ha. apply X5; auto.
    + destruct (r =? 1) eqn:Er1.
      * right. split; [apply P|]. split; [done|]. destruct Hres as [(_&_&?)|[(?&_)|(?&_)]]; [done|lia|lia].
      * destruct T as [?|(T1&T2&T3)]; [by left|right]. split; [done|]. split; [auto|]. apply X2; [|done].
        intros x. by apply (hh_rng G e fwd abs E start goal A1 A2 A3 A4 A5 A6).
  - rewrite Eg. destruct Hres as [(->&?&_)|[(->&Hinf&Hd)|(->&[?|[Hinf Hd]])]]; [by left|right; left|by right; right|right; left]; done.
Qed.

(** One pass through the loop body. *)
Definition dbody (clk : nat -> bool) (b : bool) (p : ara) (n : nat) : dres (Z * ara * nat) :=
  do p <- ad_rebuild (ad_eps_step (ad_first_iter p) b);
  do p <- ad_reprio p;
  do r <- ComputePath e (aFwd p) clk (aEps p) (aIter p) (aCall p) (aGoal p) (aC p) n;
  Ok (r.1.1, after_improve p r.1.1 r.1.2, r.2).
Lemma search_loop_eq fuel clk b p n : ad_search_loop (S fuel) e clk b p n =
  if Qltb (aFinal p) (aSat p) then
    if clk n then
      do r <- dbody clk b p (S n);
      if b then Ok (r.1.2, r.2)
      else match aGoal r.1.2 with
           | None => UB
           | Some g => do ga <- dlift DBadState (rdst (aC r.1.2) g); if sG ga =? INFINITECOST then Ok (r.1.2, r.2) else ad_search_loop fuel e clk b r.1.2 r.2
           end
    else Ok (p, S n)
  else Ok (p, n).
Proof.
  cbn [ad_search_loop]. destruct (Qltb (aFinal p) (aSat p)); [|done]. destruct (clk n); [|done]. unfold dbody.
  destruct (ad_rebuild (ad_eps_step (ad_first_iter p) b)) as [p1| | |]; cbn [obind]; try done.
  destruct (ad_reprio p1) as [p2| | |]; cbn [obind]; try done.
  destruct (ComputePath e (aFwd p2) clk (aEps p2) (aIter p2) (aCall p2) (aGoal p2) (aC p2) (S n)) as [[[r c] n']| | |]; cbn [obind fst snd]; try done.
Qed.
Lemma body_spec clk b p n : linv p -> (aWrap (ad_eps_step (ad_first_iter p) b) = false \/ aIter p + 2 < 65536) ->
  exists r p' n', dbody clk b p n = Ok (r, p', n') /\ linv p' /\ gcur p' /\ same_rest p p' /\ (n <= n')%nat /\
    aIter p <= aIter p' <= aIter p + 2 /\ aWrap p' = aWrap p /\ aEps p' = aEps (ad_eps_step p b) /\ aSat p' = (if r =? 1 then aEps p' else aSat p) /\
    ((r = 1 /\ gg p' < INFINITECOST) \/ (r <> 1 /\ gg p' = INFINITECOST /\ no_cheap (aEps p')) \/ (r = 2 /\ exists j, (n <= j < n')%nat /\ clk j = false)).
Proof.
  intros L Hw. unfold dbody.
  destruct (first_iter_spec p L) as (L0&S0&Hi0&I0&C0&T0&P0&W0).
  assert (aEps (ad_eps_step (ad_first_iter p) b) = aEps (ad_eps_step p b)) as EE.
  { unfold ad_eps_step. rewrite T0, P0. destruct (Qltb (Qabs (aSat p - aEps p)) ERR_EPS && negb b); [|done]. wcbn.
    destruct S0 as (_&_&_&_&_&_&_&Ed&Efi). by rewrite Ed, Efi. }
  set (p0 := ad_first_iter p) in *. clearbody p0.
  destruct (eps_step_spec p0 b L0 Hi0) as (L1&S1&I1&C1&T1&W1). { destruct Hw as [?|?]; [by left|right; lia]. }
  set (p1 := ad_eps_step p0 b) in *. clearbody p1.
  destruct (rebuild_spec p1 L1) as (p2&E2&L2&S2&N2&I2&C2&T2&W2&P2); [lia|].
  rewrite E2. cbn [obind].
  destruct (reprio_spec p2 L2 N2) as (p3&E3&L3&S3&N3&R3&I3&C3&T3&W3&P3). rewrite E3. cbn [obind].
  destruct (compute_spec clk p3 n L3) as (r&c'&n'&Ei&L4&Hcur&Hn&Hres); [lia|done|done|]. rewrite Ei. cbn [obind fst snd].
  exists r, (after_improve p3 r c'), n'.
  assert (same_rest p3 (after_improve p3 r c') /\ aIter (after_improve p3 r c') = aIter p3 /\ aWrap (after_improve p3 r c') = aWrap p3 /\
    aEps (after_improve p3 r c') = aEps p3 /\ aSat (after_improve p3 r c') = (if r =? 1 then aEps p3 else aSat p3)) as (S4&I4&W4&P4&T4).
  { unfold after_improve. destruct (r =? 1); wcbn; split_and!; done. }
  assert (same_rest p p3) as S03. { eapply same_rest_trans; [exact S0|]. eapply same_rest_trans; [exact S1|]; by eapply same_rest_trans. }
  split_and!; try done; try lia; try congruence.
  - by eapply same_rest_trans.
  - rewrite T4, P4. destruct (r =? 1); [done|]. congruence.
Qed.
End loop.
