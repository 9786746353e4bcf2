(** C20-C25, C36: ARA*. *)
From Coq Require Import ZifyBool ZifyNat QArith Qround Lqa.
From Verif Require Import Base KeyModel HeapModel HeapProofs ListModel ListProofs AngleModel AngleProofs AraModel AraSpec AraProofs AraProofs2 AraPath AraProofs3 AraProofs4 AraProofs5 AraProofs6 AraProofs7.
Local Open Scope Z_scope.

Section use.
Context (fwd con : bool) (E : Q) (w : world) (fuel : nat) (clk : nat -> bool) (q : params).
Context (HR : reach fwd con E w) (Hq : good_params E q).
Lemma use_pinv : aWrap (wP w) = false -> pinv fwd con E (wG w) (wE w) (set_params (wP w) q).
Proof. intros Hw. apply pinv_params; [by apply reach_pinv|done]. Qed.
Lemma use_spec b path cost p' : replan fuel (wE w) clk (wP w) q = Ok (b, path, cost, p') -> aWrap p' = false ->
  pinv fwd con E (wG w) (wE w) p' /\ aReinit p' = false /\ exists s g, user_start (wP w) = Some (if fwd then s else g) /\ user_goal (wP w) = Some (if fwd then g else s) /\
    aStart (wP w) = Some s /\ aGoal (wP w) = Some g /\
    (clk 0%nat = true ->
      (b = true -> exists C, route (fun x => x) (eedge fwd (wE w)) path (if fwd then s else g) (if fwd then g else s) C /\ C <= cost) /\
      cost <= INFINITECOST /\ (b = true <-> cost < INFINITECOST) /\
      (con = true -> forall C, aSat p' <> INFQ -> sr (wG w) (inflate (aSat p')) s g C -> cost <= C) /\
      ((forall i, clk i = true) -> b = false -> exists ep, (ep <= E)%Q /\ no_cheap con (wG w) s g ep) /\
      (aReinit (wP w) = false -> cost <= gg fwd (wE w) g (wP w)) /\ gcur g p' /\ cost = gg fwd (wE w) g p').
Proof.
  intros HE Hw. unfold replan in HE. destruct (Search_rest _ _ _ _ _ _ HE) as (Hg&Hs&Hf&_&_&_&Ww). specialize (Ww Hw).
  destruct (Search_spec fwd con E (wG w) (wE w) fuel clk _ b path cost p' (use_pinv Ww) HE Hw) as (P'&Hr&s&g&Es&Eg&Hx).
  split; [done|]. split; [done|]. exists s, g. unfold user_start, user_goal.
  pose proof (p_fwd _ _ _ _ _ _ (use_pinv Ww)) as Hfw. cbn in Hfw, Es, Eg. rewrite Hfw.
  split_and!; try done; destruct fwd; done.
Qed.
End use.

(** C20: a returned path is a path of the environment from start to goal, not more expensive than the reported cost. *)
Theorem C20_returned_path_valid : forall fwd con E w fuel clk q path cost p', reach fwd con E w -> good_params E q -> clk 0%nat = true ->
  replan fuel (wE w) clk (wP w) q = Ok (true, path, cost, p') -> aWrap p' = false ->
  exists s g C, user_start (wP w) = Some s /\ user_goal (wP w) = Some g /\
    route (fun x => x) (eedge fwd (wE w)) path s g C /\ C <= cost < INFINITECOST.
Proof.
  intros fwd con E w fuel clk q path cost p' HR Hq Hc HE Hw.
  destruct (use_spec fwd con E w fuel clk q HR Hq true path cost p' HE Hw) as (_&_&s&g&Es&Eg&_&_&Hx).
  destruct (Hx Hc) as (H1&_&H3&_). destruct (H1 eq_refl) as (C&HC&Hle). eexists _, _, C. split_and!; try done. by apply H3.
Qed.
Print Assumptions C20_returned_path_valid.

(** C21: the cost is at most the cost of any path with every edge cost inflated by the solution eps and rounded up. *)
Theorem C21_bound : forall fwd E w fuel clk q b path cost p', reach fwd true E w -> good_params E q -> clk 0%nat = true ->
  replan fuel (wE w) clk (wP w) q = Ok (b, path, cost, p') -> aWrap p' = false -> (get_solution_eps p' < inject_Z INFINITECOST)%Q ->
  forall s g l C, user_start (wP w) = Some s -> user_goal (wP w) = Some g ->
    route (inflate (get_solution_eps p')) (gedge fwd (wG w)) l s g C -> cost <= C.
Proof.
  intros fwd E w fuel clk q b path cost p' HR Hq Hc HE Hw He s g l C Hs Hg Hro.
  destruct (use_spec fwd true E w fuel clk q HR Hq b path cost p' HE Hw) as (_&_&s'&g'&Es&Eg&_&_&Hx).
  destruct (Hx Hc) as (_&_&_&H4&_). rewrite Hs in Es. rewrite Hg in Eg. injection Es as ->. injection Eg as ->.
  apply (H4 eq_refl); [unfold get_solution_eps in He; intros Hi; rewrite Hi in He; by apply Qlt_irrefl in He|].
  apply route_sr in Hro. by destruct fwd.
Qed.
Print Assumptions C21_bound.
Lemma gedge_pos fwd con E w : reach fwd con E w -> aWrap (wP w) = false -> forall u v c, gedge fwd (wG w) u v c -> 0 < c.
Proof.
  intros HR Hw u v c Hg. pose proof (p_ge _ _ _ _ _ _ (reach_pinv fwd con E w HR Hw)) as Hge.
  destruct fwd; cbn in Hg; by apply (ge_edge _ _ _ _ Hge) in Hg as (_&?&_).
Qed.
(** Real bound, exact for integer eps, optimal for eps <= 1. *)
Theorem C21_real_bound : forall fwd E w fuel clk q b path cost p', reach fwd true E w -> good_params E q -> clk 0%nat = true ->
  replan fuel (wE w) clk (wP w) q = Ok (b, path, cost, p') -> aWrap p' = false -> (get_solution_eps p' < inject_Z INFINITECOST)%Q ->
  forall s g l C, user_start (wP w) = Some s -> user_goal (wP w) = Some g -> route (fun x => x) (gedge fwd (wG w)) l s g C ->
    ((1 <= get_solution_eps p')%Q -> (inject_Z cost <= get_solution_eps p' * inject_Z C + inject_Z (Z.of_nat (length l - 1)))%Q) /\
    (forall n, 1 <= n -> (get_solution_eps p' == inject_Z n)%Q -> cost <= n * C) /\
    ((get_solution_eps p' <= 1)%Q -> cost <= C).
Proof.
  intros fwd E w fuel clk q b path cost p' HR Hq Hc HE Hw He s g l C Hs Hg Hro.
  assert (aWrap (wP w) = false) as Hw0.
  { unfold replan in HE. by destruct (Search_rest _ _ _ _ _ _ HE) as (_&_&_&_&_&_&W); apply W. }
  pose proof (gedge_pos fwd true E w HR Hw0) as Hpos.
  pose proof (fun l C => C21_bound fwd E w fuel clk q b path cost p' HR Hq Hc HE Hw He s g l C Hs Hg) as HB.
  split_and!.
  - intros H1. destruct (route_scale fwd (wG w) _ l s g C Hpos H1 Hro) as (_&C2&HR2&Hle&_). specialize (HB l C2 HR2).
    rewrite Zle_Qle in HB. lra.
  - intros n Hn En. assert (1 <= get_solution_eps p')%Q as H1 by (rewrite En; unfold inject_Z, Qle; cbn; lia).
    destruct (route_scale fwd (wG w) _ l s g C Hpos H1 Hro) as (_&C2&HR2&_&Hi&_). rewrite <- (Hi n En Hn). by apply (HB l).
  - intros H1. destruct (route_weights fwd (wG w) (fun x => x) (inflate (get_solution_eps p')) l s g C (fun _ _ => True) Hpos Hro) as (C2&HR2&Hle).
    specialize (HB l C2 HR2). assert (C2 <= C); [|lia]. apply Hle. intros c Hc0. rewrite inflate_one by (try done; lia). lia.
Qed.
Print Assumptions C21_real_bound.

(** C22: "no solution" with time left means that no path is cheaper than INFINITECOST once inflated by E (the largest eps used). *)
Theorem C22_failure_means_no_cheap_path : forall fwd E w fuel clk q path cost p', reach fwd true E w -> good_params E q -> (forall i, clk i = true) ->
  replan fuel (wE w) clk (wP w) q = Ok (false, path, cost, p') -> aWrap p' = false ->
  forall s g l C, user_start (wP w) = Some s -> user_goal (wP w) = Some g -> route (inflate E) (gedge fwd (wG w)) l s g C -> INFINITECOST <= C.
Proof.
  intros fwd E w fuel clk q path cost p' HR Hq Hc HE Hw s g l C Hs Hg Hro.
  assert (aWrap (wP w) = false) as Hw0.
  { unfold replan in HE. by destruct (Search_rest _ _ _ _ _ _ HE) as (_&_&_&_&_&_&W); apply W. }
  pose proof (gedge_pos fwd true E w HR Hw0) as Hpos.
  destruct (use_spec fwd true E w fuel clk q HR Hq false path cost p' HE Hw) as (_&_&s'&g'&Es&Eg&_&_&Hx).
  destruct (Hx (Hc _)) as (_&_&_&_&H5&_). destruct (H5 Hc eq_refl) as (ep&Hep&Hnc).
  rewrite Hs in Es. rewrite Hg in Eg. injection Es as ->. injection Eg as ->.
  destruct (route_weights fwd (wG w) (inflate E) (inflate ep) l _ _ C (fun _ _ => True) Hpos Hro) as (C2&HR2&Hle).
  assert (C2 <= C) by (apply Hle; intros c Hc0; apply inflate_mono; [lia|done]).
  assert (INFINITECOST <= C2); [|lia]. apply (Hnc eq_refl). apply route_sr in HR2. by destruct fwd.
Qed.
Print Assumptions C22_failure_means_no_cheap_path.

(** C22/C23: replan returns normally: no exception, no undefined behaviour, and it ends ([k] bounds the number of eps steps,
    [fuel] the iterations of the main loop). *)
Theorem C23_replan_total : forall fwd con E w fuel clk q s g k, reach fwd con E w -> good_params E q -> clk 0%nat = true ->
  (forall i j, (i <= j)%nat -> clk i = false -> clk j = false) ->
  user_start (wP w) = Some s -> user_goal (wP w) = Some g ->
  (0 < pDec q)%Q -> (E <= inject_Z (Z.of_nat k) * pDec q)%Q -> (S k < fuel)%nat ->
  aWrap (wP w) = false -> aCall (wP w) + 1 < 65536 -> aIter (wP w) + Z.of_nat fuel < 65536 ->
  exists b path cost p', replan fuel (wE w) clk (wP w) q = Ok (b, path, cost, p') /\ aWrap p' = false.
Proof.
  intros fwd con E w fuel clk q s g k HR Hq Hc Hmon Hs Hg Hd Hk Hf Hw Hcall Hiter.
  pose proof (use_pinv fwd con E w q HR Hq Hw) as P. pose proof (p_eps _ _ _ _ _ _ P) as Hep. pose proof (p_fwd _ _ _ _ _ _ P) as Hfw.
  pose proof (p_cnt _ _ _ _ _ _ P) as Hcnt. cbn in Hep, Hfw, Hcnt.
  destruct Hq as (Hi&Hfi&_).
  assert (exists s' g', aStart (wP w) = Some s' /\ aGoal (wP w) = Some g') as (s'&g'&Es&Eg).
  { unfold user_start, user_goal in *. destruct (aFwd (wP w)); eauto. }
  destruct (Search_total fwd con E (wG w) (wE w) fuel clk (set_params (wP w) q) s' g' k P) as ([[b path] cost]&p'&HE&Hw'); try done; cbn.
  - destruct (aReinit (wP w)); lia.
  - destruct (aReinit (wP w)); lra.
  - exists b, path, cost, p'. split; [done|]. cbn in Hw'. congruence.
Qed.
Print Assumptions C23_replan_total.
(** The instrumented loop of ImprovePath is the loop of ImprovePath. *)
Theorem C23_log_faithful : forall e fwd clk eps iter call goal fuel c n log,
  improve_loop e fwd fuel clk eps iter call goal c n =
  (do r <- improve_log e fwd fuel clk eps iter call goal c n log; Ok (r.1.1, r.1.2)).
Proof. intros. apply log_erase. Qed.
Print Assumptions C23_log_faithful.
Lemma at_loop_wrap e clk p0 p n : at_loop e clk p0 p n -> aWrap p = false -> aWrap p0 = false.
Proof.
  induction 1 as [p HE|p n p1 p2 r c n' _ IH _ E1 E2 _].
  - destruct (prep_rest _ _ _ HE) as (_&_&_&_&_&_&_&W&_). intros Hw. by apply W.
  - destruct (new_iteration_rest _ _ _ E1) as (_&W1). destruct (new_priorities_rest _ _ E2) as (_&W2).
    destruct (eps_step_rest p (aFirst p)) as (_&_&W0).
    intros Hw. apply IH. rewrite <- W0. apply W1. rewrite <- W2. by destruct (r =? 1).
Qed.
Lemma at_loop_linv fwd con E G e clk p0 s g : pinv fwd con E G e p0 -> aStart p0 = Some s -> aGoal p0 = Some g ->
  forall p n, at_loop e clk p0 p n -> aWrap p = false -> linv fwd con E G e s g p.
Proof.
  intros P0 Hs Hg p n. induction 1 as [p HE|p n p1 p2 r c n' Hal IH Hclk E1 E2 E3]; intros Hw.
  - destruct (prep_rest _ _ _ HE) as (_&_&_&_&_&_&_&W&Hset).
    destruct (prep_spec fwd con E G e p0 P0) as (p'&s'&g'&E1&Es'&Eg'&L1&_).
    { intros Hr. split; [by apply W; auto|]. by destruct (Hset Hr). }
    unfold prep in E1. cbv zeta in HE. rewrite HE in E1. injection E1 as <-. rewrite Hs in Es'. rewrite Hg in Eg'. by injection Es' as <-; injection Eg' as <-.
  - assert (body e clk (aFirst p) p (S n) = Ok (r, after_improve p2 r c, n')) as EB.
    { unfold body. rewrite E1. cbn [obind]. rewrite E2. cbn [obind]. rewrite E3. done. }
    destruct (body_rest _ _ _ _ _ _ _ _ EB) as (_&W). fold (after_improve p2 r c) in Hw. destruct (W Hw) as (Hw1&Hit).
    destruct (body_spec fwd con E G e s g clk (aFirst p) p (S n) (IH Hw1) Hit) as (r'&p'&n''&EB'&L'&_). rewrite EB in EB'. by injection EB' as <- <- <-.
Qed.
(** Every time ImprovePath is called by replan, it expands no state twice, and never the goal; so at most as many states as there are. *)
Theorem C23_once_per_iteration : forall fwd con E w clk q p n p1 p2 g c0 fuel c n' log, reach fwd con E w -> good_params E q ->
  user_start (wP w) <> None -> aGoal (wP w) = Some g ->
  at_loop (wE w) clk (set_params (wP w) q) p n ->
  new_iteration (wE w) (eps_step p (aFirst p)) = Ok p1 -> new_priorities p1 = Ok p2 -> aWrap p2 = false ->
  refresh (wE w) fwd (aCall p2) true (aC p2) g = Ok c0 ->
  improve_log (wE w) fwd fuel clk (aEps p2) (aIter p2) (aCall p2) g c0 (S n) [] = Ok (c, n', log) ->
  NoDup log /\ g ∉ log /\ (length log <= eSize (wE w))%nat.
Proof.
  intros fwd con E w clk q p n p1 p2 g c0 fuel c n' log HR Hq Hus Hg Hal E1 E2 Hw2 Eref Elog.
  destruct (new_iteration_rest _ _ _ E1) as (_&W1). destruct (new_priorities_rest _ _ E2) as (_&W2).
  destruct (eps_step_rest p (aFirst p)) as (_&I0&W0). rewrite W2 in Hw2. destruct (W1 Hw2) as (Hw1&Hit). rewrite W0 in Hw1. rewrite I0 in Hit.
  pose proof (at_loop_wrap _ _ _ _ _ Hal Hw1) as Hw0. cbn in Hw0.
  pose proof (use_pinv fwd con E w q HR Hq Hw0) as P0.
  assert (exists s, aStart (wP w) = Some s) as (s&Hs).
  { unfold user_start in Hus. destruct (aFwd (wP w)) eqn:Ef.
    - destruct (aStart (wP w)); [eauto|done].
    - destruct (aReinit (wP w)) eqn:Er; [|destruct (p_search _ _ _ _ _ _ P0 Er) as (s&_&_&Hs&_); eauto].
      assert (forall p n, at_loop (wE w) clk (set_params (wP w) q) p n -> aStart (wP w) <> None) as Hx.
      { induction 1 as [p' HE|]; [|done]. destruct (prep_rest _ _ _ HE) as (_&_&_&_&_&_&_&_&Hset). by apply Hset. }
      specialize (Hx p n Hal). destruct (aStart (wP w)); [eauto|done]. }
  pose proof (at_loop_linv fwd con E (wG w) (wE w) clk _ s g P0 Hs Hg p n Hal Hw1) as L.
  destruct (eps_step_spec fwd con E (wG w) (wE w) s g p (aFirst p) L) as (L1&_).
  destruct (new_iteration_spec fwd con E (wG w) (wE w) s g _ L1) as (p1'&E1'&L2&_&Hn&_). { rewrite I0. done. }
  rewrite E1 in E1'. injection E1' as <-.
  destruct (new_priorities_spec fwd con E (wG w) (wE w) s g _ L2 Hn) as (p2'&E2'&L3&_&Hn3&Hr3&_). rewrite E2 in E2'. injection E2' as <-.
  destruct (linv_search _ _ _ _ _ _ _ p2 L3) as (m&z&I&II&K&J). pose proof L3 as (P&_&Hv&_&Hgoal).
  assert (sees fwd con (wG w) (wE w) (Some g)) as Hse by (rewrite <- Hgoal; apply P).
  destruct (p_goal _ _ _ _ _ _ P g Hgoal) as [a0 Ea0].
  destruct (get_refresh (wG w) (wE w) fwd (aCall p2) (aIter p2) s None (aC p2) m z g I Hv) as (c1&Eg&I1&Hv1&Hcur&HL&Hp&Hpc).
  { apply P. } { by apply (ci_dom _ _ _ _ _ _ _ _ _ _ I g a0). }
  assert (refresh (wE w) fwd (aCall p2) true (aC p2) g = Ok c1) as Ec1.
  { unfold GetState in Eg. rewrite Ea0 in Eg. destruct (eSize (wE w) <=? g)%nat; [discriminate|]. exact Eg. }
  rewrite Eref in Ec1. injection Ec1 as <-.
  assert (iinv (wG w) (wE w) fwd con (aEps p2) (aCall p2) (aIter p2) s c0 m z) as II1.
  { eapply (iinv_sim (wG w) fwd con (wE w) (wE w)); [|by apply II]. intros u. by rewrite HL. }
  assert (kinv (wE w) fwd (aEps p2) (aCall p2) c0 m) as K1 by (intros u k Hk; rewrite HL; by apply K).
  destruct (log_spec (wG w) (wE w) fwd con E (p_ge _ _ _ _ _ _ P) clk (aEps p2) (aCall p2) (aIter p2) s g) with (fuel := fuel) (c := c0) (m := m) (z := z)
    (n := S n) (log := @nil nat) (c' := c) (n' := n') (log' := log) as (Hnd&Hin); try done; try apply P.
  { constructor. } { intros x Hx. by apply elem_of_nil in Hx. }
  split_and!; [done|by intros Hx; destruct (Hin g Hx)|].
  rewrite <- (seq_length (eSize (wE w)) 0). apply submseteq_length, NoDup_submseteq; [done|]. intros x Hx. apply elem_of_seq. destruct (Hin x Hx). lia.
Qed.
Print Assumptions C23_once_per_iteration.

(** C24: after replan, compute_suboptimality returns normally. *)
Section c24.
Context (fwd con : bool) (E : Q) (w : world) (fuel : nat) (clk : nat -> bool) (q : params) (b : bool) (path : list nat) (cost : Z) (p' : ara).
Context (HR : reach fwd con E w) (Hq : good_params E q) (Hc : clk 0%nat = true) (HE : replan fuel (wE w) clk (wP w) q = Ok (b, path, cost, p')) (Hw : aWrap p' = false).
Lemma use_linv s g : aStart (wP w) = Some s -> aGoal (wP w) = Some g -> linv fwd con E (wG w) (wE w) s g p'.
Proof.
  intros Hs Hg. unfold replan in HE. destruct (Search_rest _ _ _ _ _ _ HE) as (_&_&_&_&_&_&Ww). specialize (Ww Hw).
  by apply (Search_linv fwd con E (wG w) (wE w) _ _ _ _ _ s g (use_pinv fwd con E w q HR Hq Ww) HE Hw).
Qed.
End c24.
Theorem C24_total : forall fwd con E w fuel clk q b path cost p', reach fwd con E w -> good_params E q -> clk 0%nat = true ->
  replan fuel (wE w) clk (wP w) q = Ok (b, path, cost, p') -> aWrap p' = false -> exists r, compute_suboptimality p' = Ok r.
Proof.
  intros fwd con E w fuel clk q b path cost p' HR Hq Hc HE Hw.
  destruct (use_spec fwd con E w fuel clk q HR Hq b path cost p' HE Hw) as (P'&Hr&s&g&_&_&Es&Eg&Hx).
  destruct (Hx Hc) as (_&_&_&_&_&_&Hcur&_).
  pose proof (use_linv fwd con E w fuel clk q b path cost p' HR Hq HE Hw s g Es Eg) as L.
  destruct (subopt_spec fwd con E (wG w) (wE w) s g p' L Hcur) as (m&z&r&_&Er&_). eauto.
Qed.
Print Assumptions C24_total.
(** C24: a value b below the solution eps is a true bound (cost <= b times the cost of any path), provided the state in the last
    slot of OPEN - which the code skips - is not the only one with the least g + h.  A value not below the solution eps inherits C21. *)
Theorem C24_valid_bound : forall fwd E w fuel clk q b path cost p' bound, reach fwd true E w -> good_params E q -> clk 0%nat = true ->
  replan fuel (wE w) clk (wP w) q = Ok (b, path, cost, p') -> aWrap p' = false ->
  compute_suboptimality p' = Ok (Some bound) -> last_slot_dominated p' ->
  forall s g l C, user_start (wP w) = Some s -> user_goal (wP w) = Some g -> route (fun x => x) (gedge fwd (wG w)) l s g C ->
    (1 <= bound)%Q /\ ((bound < get_solution_eps p')%Q -> (inject_Z cost <= bound * inject_Z C)%Q) /\
    (inject_Z cost <= bound * inject_Z C + inject_Z (Z.of_nat (length l - 1)))%Q.
Proof.
  intros fwd E w fuel clk q b path cost p' bound HR Hq Hc HE Hw Hsub Hlast s0 g0 l C Hs0 Hg0 Hro.
  pose proof HE as HE0. unfold replan in HE0.
  assert (aWrap (wP w) = false) as Hw0 by (by destruct (Search_rest _ _ _ _ _ _ HE0) as (_&_&_&_&_&_&W); apply W).
  pose proof (gedge_pos fwd true E w HR Hw0) as Hpos.
  destruct (use_spec fwd true E w fuel clk q HR Hq b path cost p' HE Hw) as (P'&Hr&s&g&Es0&Eg0&Es&Eg&Hx).
  destruct (Hx Hc) as (_&Hmax&_&H4&_&_&Hcur&Hcost).
  pose proof (use_linv fwd true E w fuel clk q b path cost p' HR Hq HE Hw s g Es Eg) as L.
  destruct (subopt_spec fwd true E (wG w) (wE w) s g p' L Hcur) as (m&z&r&I&Er&_&Hb). rewrite Hsub in Er. injection Er as <-.
  destruct (Hb bound eq_refl) as (f&Hex&Hmin&Hb1&Hbb).
  assert (sr (wG w) (fun x => x) s g C) as Hsr.
  { apply route_sr in Hro. rewrite Hs0 in Es0. rewrite Hg0 in Eg0. injection Es0 as ->. injection Eg0 as ->. by destruct fwd. }
  assert (0 <= C /\ (C = 0 -> s = g)) as [HC0 HCs].
  { clear - Hsr Hpos. induction Hsr as [|s' t w0 C R [IH1 IH2] Hin]; [by split|].
    assert (0 < w0); [|split; lia]. destruct fwd; [by apply (Hpos s' t w0)|by apply (Hpos t s' w0)]. }
  assert (0 <= inject_Z (Z.of_nat (length l - 1)))%Q as Hl0 by (unfold inject_Z, Qle; cbn; lia).
  assert (forall u, is_Some (m !! u) \/ u ∈ z.*2 -> f <= fval fwd (wE w) (aCall p') (aC p') u) as Hall.
  { assert (forall u, is_Some (m !! u) \/ u ∈ z.*2 -> fplus p' u (fval fwd (wE w) (aCall p') (aC p') u)) as Hfp.
    { intros u Hu. pose proof (ci_inc _ _ _ _ _ _ _ _ _ _ I u) as Hlt. pose proof (ci_g _ _ _ _ _ _ _ _ _ _ I u).
      assert (sG (lk (wE w) fwd (aCall p') (aC p') u) < sV (lk (wE w) fwd (aCall p') (aC p') u)) by (apply Hlt; tauto).
      destruct (lk_finite (wE w) fwd (aCall p') (aC p') u) as (a&Ea&_&El); [lia|]. exists a. split; [done|]. unfold fval. rewrite El. f_equal.
      destruct L as (_&_&Hv&_). symmetry. by apply Hv. }
    pose proof (ci_lrep _ _ _ _ _ _ _ _ _ _ I) as Hlr. pose proof (ci_rep _ _ _ _ _ _ _ _ _ _ I) as Hrep.
    intros u [[k Hk]|Hu]; [|apply Hmin; by left].
    destruct Hrep as (R1&R2&R3&R4&R5).
    destruct (R4 u k Hk) as (Hj&Ej). set (j := idxof (cOpen (aC p')) u) in *.
    destruct (decide (j = cur (cOpen (aC p')))) as [Ejc|Ejc].
    2:{ apply Hmin. right. exists j. split; [lia|]. by rewrite Ej. }
    rewrite Ejc in Ej. destruct (Hlast u k _ ltac:(lia) Ej (Hfp u (or_introl (mk_is_Some _ _ Hk)))) as (s'&v'&Hv'&Hle&Hw').
    assert (v' = fval fwd (wE w) (aCall p') (aC p') s' /\ f <= fval fwd (wE w) (aCall p') (aC p') s') as [-> ?]; [|lia].
    assert (is_Some (m !! s') \/ s' ∈ z.*2) as Hin.
    { destruct Hw' as [Hin|(j'&k'&Hj'&Ej')]; [right; by apply (list_in_spec _ _ _ Hlr)|left].
      destruct (R3 j') as (s2&k2&Es2&Em2&_); [lia|]. rewrite Ej' in Es2. injection Es2 as <- <-. eauto. }
    split.
    - destruct (Hfp s' Hin) as (a1&Ha1&->). destruct Hv' as (a2&Ha2&->). congruence.
    - apply Hmin. destruct Hw' as [Hin'|(j'&k'&Hj'&Ej')]; [left; by apply (list_in_spec _ _ _ Hlr)|right; exists j'; split; [done|by rewrite Ej']]. }
  assert (aSat p' <> inject_Z INFINITECOST \/ aSat p' = inject_Z INFINITECOST) as Hd.
  { destruct (aSat p') as [a1 a2], (inject_Z INFINITECOST) as [b1 b2]. destruct (decide (a1 = b1)) as [->|?], (decide (a2 = b2)) as [->|?]; auto; left; congruence. }
  assert ((inject_Z cost <= bound * inject_Z C)%Q \/ (get_solution_eps p' <= bound)%Q /\ aSat p' <> inject_Z INFINITECOST) as Hfin.
  { destruct Hbb as [Hsat|(Hf&Hq2)].
    - destruct Hd as [Hd|Hd]; [by right|left]. destruct (decide (C = 0)) as [->|HCn].
      + rewrite <- (HCs eq_refl) in Hcost. unfold gg in Hcost. rewrite (ci_start _ _ _ _ _ _ _ _ _ _ I) in Hcost. subst cost. change (inject_Z 0) with 0%Q. lra.
      + assert (inject_Z cost <= inject_Z INFINITECOST)%Q by (rewrite <- Zle_Qle; lia).
        assert (1 <= inject_Z C)%Q by (unfold inject_Z, Qle; cbn; lia). rewrite Hd in Hsat. assert (0 <= (bound) * (inject_Z C - 1))%Q by (apply Qmult_le_0_compat; lra). lra.
    - left. rewrite Hcost. by apply (subopt_bound fwd true E (wG w) (wE w) s g p' m z f bound C L). }
  split; [done|]. split.
  - intros Hlt. destruct Hfin as [?|(?&_)]; [done|]. exfalso. lra.
  - destruct Hfin as [?|(Hsat&Hn)]; [lra|]. unfold get_solution_eps in *.
    assert (0 <= inject_Z C)%Q as HCq by (unfold inject_Z, Qle; cbn; lia).
    assert (exists C2, route (inflate (aSat p')) (gedge fwd (wG w)) l s0 g0 C2 /\ ((1 <= aSat p')%Q -> (inject_Z C2 <= aSat p' * inject_Z C + inject_Z (Z.of_nat (length l - 1)))%Q) /\
      ((aSat p' < 1)%Q -> C2 <= C)) as (C2&HR2&Hbig&Hsmall).
    { destruct (Qlt_le_dec (aSat p') 1) as [Hlt|Hge].
      - destruct (route_weights fwd (wG w) (fun x => x) (inflate (aSat p')) l s0 g0 C (fun _ _ => True) Hpos Hro) as (C2&HR2&Hle).
        exists C2. split_and!; [done|intros; lra|]. intros _. apply Hle. intros c Hc0. rewrite inflate_one by (try lra; lia). lia.
      - destruct (route_scale fwd (wG w) _ l s0 g0 C Hpos Hge Hro) as (_&C2&HR2&Hle&_). exists C2. split_and!; try done. intros; lra. }
    assert (cost <= C2) as HcC.
    { apply (H4 eq_refl); [done|]. apply route_sr in HR2. rewrite Hs0 in Es0. rewrite Hg0 in Eg0. injection Es0 as ->. injection Eg0 as ->. by destruct fwd. }
    rewrite Zle_Qle in HcC. assert (0 <= (bound - 1) * inject_Z C)%Q by (apply Qmult_le_0_compat; lra).
    destruct (Qlt_le_dec (aSat p') 1) as [Hlt|Hge].
    + assert (C2 <= C) as H5 by (apply Hsmall; lra). rewrite Zle_Qle in H5. lra.
    + specialize (Hbig Hge). assert (0 <= (bound - aSat p') * inject_Z C)%Q by (apply Qmult_le_0_compat; lra). lra.
Qed.
Print Assumptions C24_valid_bound.
