(** C51-C55: Anytime D*.  (Concrete worlds: AdProps2.) *)
From Coq Require Import ZifyBool ZifyNat QArith Qround Lqa.
From Verif Require Import Base KeyModel HeapModel HeapProofs ListModel ListProofs ListSpec AngleModel AngleProofs AraModel AraSpec AraProofs AraPath AraProofs3 AraProofs4 AraProofs6 AraProofs7 AdModel AdSpec AdAbs AdProofs AdProofs2 AdProofs3 AdPath AdProofs4 AdProofs5 AdProofs6 AdProofs7 AdProofs8 AdProofs9.
Local Open Scope Z_scope.

Section use.
Context (fwd abs : bool) (E : Q) (w : world) (fuel : nat) (clk : nat -> bool) (q : params).
Context (HR : dreach fwd abs E w) (Hq : good_params1 E q).
Lemma use_dpinv : aWrap (wP w) = false -> dpinv fwd abs E (wG w) (wE w) (set_params (wP w) q).
Proof. intros Hw. apply dpinv_params; [by apply dreach_pinv|done]. Qed.
Lemma use_dspec b path cost p' : ad_replan fuel (wE w) clk (wP w) q = Ok (b, path, cost, p') -> aWrap p' = false ->
  dpinv fwd abs E (wG w) (wE w) p' /\ aWrap (wP w) = false /\ exists s g, user_start (wP w) = Some (if fwd then s else g) /\ user_goal (wP w) = Some (if fwd then g else s) /\
    aStart (wP w) = Some s /\ aGoal (wP w) = Some g /\ dsees fwd abs (wG w) (wE w) (Some s) (Some g) /\
    (b = true <-> aSat p' <> INFQ) /\
    (b = true -> (1 <= aSat p' <= E)%Q /\ (exists l C, path = clip l /\ route_to fwd (wG w) s g l C /\ C <= cost) /\ cost < INFINITECOST /\
         forall C, sr (wG w) (inflate (aSat p')) s g C -> cost <= C) /\
      (b = false -> path = [] /\ ((forall i, clk i = true) -> exists ep, (ep <= E)%Q /\ no_cheap (wG w) s g ep)).
Proof.
  intros HE Hw. unfold ad_replan in HE. destruct (Search_rest _ _ _ _ _ _ HE) as (_&_&_&_&_&_&Ww&_). specialize (Ww Hw).
  pose proof (use_dpinv Ww) as P.
  destruct (Search_spec fwd abs E (wG w) (wE w) fuel clk _ b path cost p' P HE Hw) as (P'&Hr&s&g&Es&Eg&Hx).
  split; [done|]. split; [done|]. exists s, g. unfold user_start, user_goal.
  pose proof (p_fwd _ _ _ _ _ _ P) as Hfw. pose proof (p_sees _ _ _ _ _ _ P) as Hse. cbn in Hfw, Es, Eg, Hse. rewrite Es, Eg in Hse. rewrite Hfw, Es, Eg.
  split; [by destruct fwd|]. split; [by destruct fwd|]. done.
Qed.
End use.

(** C51: a returned path is a path of the environment from start to goal, not more expensive than the reported cost.  A path of more than
    100000 steps is not returned (the vector is empty). *)
Theorem C51_returned_path_valid : forall fwd abs E w fuel clk q path cost p', dreach fwd abs E w -> good_params1 E q ->
  ad_replan fuel (wE w) clk (wP w) q = Ok (true, path, cost, p') -> aWrap p' = false ->
  exists s g l C, user_start (wP w) = Some s /\ user_goal (wP w) = Some g /\
    route (fun x => x) (eedge fwd (wE w)) l s g C /\ C <= cost < INFINITECOST /\
    (path = l \/ path = [] /\ 100000 < Z.of_nat (length l) - 1).
Proof.
  intros fwd abs E w fuel clk q path cost p' HR Hq HE Hw.
  destruct (use_dspec fwd abs E w fuel clk q HR Hq true path cost p' HE Hw) as (_&_&s&g&Es&Eg&_&_&Hse&_&Hx&_).
  destruct (Hx eq_refl) as (_&(l&C&->&Hro&Hle)&Hlt&_). exists (if fwd then s else g), (if fwd then g else s), l, C.
  split; [done|]. split; [done|]. split; [|split; [done|]].
  - unfold route_to in Hro. revert Hro. generalize (if fwd then s else g) (if fwd then g else s). clear - Hse. intros u v.
    induction 1 as [a|a b l z c C (He&Hn) Hro IH]; [apply route_one|apply (route_cons (fun x => x)); [|done]]. unfold eedge, gedge in *.
    destruct fwd; (rewrite (ds_next _ _ _ _ _ _ Hse); [done|]); intros _ [= ?]; by apply Hn.
  - unfold clip. destruct (length l <=? S max_steps)%nat eqn:El; [by left|right]. split; [done|].
    apply Nat.leb_gt in El. assert (Z.of_nat max_steps = 100000) as Hm by (unfold max_steps; rewrite Z2Nat.id; lia). lia.
Qed.
Print Assumptions C51_returned_path_valid.

(** C52: the cost of a solution is at most the cost of any path of the graph with every edge cost inflated by the reported eps and rounded up; so
    it is within a factor eps of the optimum up to the rounding, and exactly so for whole eps. *)
Theorem C52_bound : forall fwd abs E w fuel clk q path cost p', dreach fwd abs E w -> good_params1 E q ->
  ad_replan fuel (wE w) clk (wP w) q = Ok (true, path, cost, p') -> aWrap p' = false ->
  (1 <= ad_solution_eps p' <= E)%Q /\
  forall s g l C, user_start (wP w) = Some s -> user_goal (wP w) = Some g ->
    route (inflate (ad_solution_eps p')) (gedge fwd (wG w)) l s g C -> cost <= C.
Proof.
  intros fwd abs E w fuel clk q path cost p' HR Hq HE Hw.
  destruct (use_dspec fwd abs E w fuel clk q HR Hq true path cost p' HE Hw) as (_&_&s'&g'&Es&Eg&_&_&Hse&_&Hx&_).
  destruct (Hx eq_refl) as (Hb&_&_&H4). split; [done|]. intros s g l C Hs Hg Hro.
  rewrite Hs in Es. rewrite Hg in Eg. injection Es as ->. injection Eg as ->. apply H4. apply route_sr in Hro. by destruct fwd.
Qed.
Print Assumptions C52_bound.
Lemma dgedge_pos fwd abs E w : dreach fwd abs E w -> aWrap (wP w) = false -> forall u v c, gedge fwd (wG w) u v c -> 0 < c.
Proof.
  intros HR Hw u v c Hg. pose proof (p_ge _ _ _ _ _ _ (dreach_pinv fwd abs E w HR Hw)) as Hge.
  destruct fwd; cbn in Hg; by apply (ge_edge _ _ _ _ Hge) in Hg as (_&?&_).
Qed.
Theorem C52_real_bound : forall fwd abs E w fuel clk q path cost p', dreach fwd abs E w -> good_params1 E q ->
  ad_replan fuel (wE w) clk (wP w) q = Ok (true, path, cost, p') -> aWrap p' = false ->
  forall s g l C, user_start (wP w) = Some s -> user_goal (wP w) = Some g -> route (fun x => x) (gedge fwd (wG w)) l s g C ->
    (inject_Z cost <= ad_solution_eps p' * inject_Z C + inject_Z (Z.of_nat (length l - 1)))%Q /\
    (forall n, (ad_solution_eps p' == inject_Z n)%Q -> cost <= n * C).
Proof.
  intros fwd abs E w fuel clk q path cost p' HR Hq HE Hw s g l C Hs Hg Hro.
  destruct (use_dspec fwd abs E w fuel clk q HR Hq true path cost p' HE Hw) as (_&Hw0&_).
  pose proof (dgedge_pos fwd abs E w HR Hw0) as Hpos.
  destruct (C52_bound fwd abs E w fuel clk q path cost p' HR Hq HE Hw) as ((H1&_)&HB).
  destruct (route_scale fwd (wG w) _ l s g C Hpos H1 Hro) as (_&C2&HR2&Hle&Hi&_). specialize (HB s g l C2 Hs Hg HR2). split.
  - rewrite Zle_Qle in HB. lra.
  - intros n En. rewrite <- (Hi n En); [done|]. rewrite En in H1. unfold inject_Z, Qle in H1. cbn in H1. lia.
Qed.
Print Assumptions C52_real_bound.

(** C53: replan returns normally: no exception, no undefined behaviour, and it ends ([k] bounds the number of eps steps, [fuel] the iterations of the
    main loop). *)
Theorem C53_replan_total : forall fwd abs E w fuel clk q s g k, dreach fwd abs E w -> good_params1 E q ->
  (forall i j, (i <= j)%nat -> clk i = false -> clk j = false) ->
  user_start (wP w) = Some s -> user_goal (wP w) = Some g ->
  (0 < pDec q)%Q -> (E <= inject_Z (Z.of_nat k) * pDec q)%Q -> (S k < fuel)%nat ->
  aWrap (wP w) = false -> aCall (wP w) + 1 < 65536 -> aIter (wP w) + 2 * Z.of_nat fuel < 65536 ->
  exists b path cost p', ad_replan fuel (wE w) clk (wP w) q = Ok (b, path, cost, p') /\ aWrap p' = false.
Proof.
  intros fwd abs E w fuel clk q s g k HR Hq Hmon Hs Hg Hd Hk Hf Hw Hcall Hiter.
  pose proof (use_dpinv fwd abs E w q HR Hq Hw) as P. pose proof (p_eps _ _ _ _ _ _ P) as Hep. pose proof (p_fwd _ _ _ _ _ _ P) as Hfw.
  pose proof (p_cnt _ _ _ _ _ _ P) as Hcnt. cbn in Hep, Hfw, Hcnt.
  destruct Hq as (Hi&Hfi&_).
  assert (exists s' g', aStart (wP w) = Some s' /\ aGoal (wP w) = Some g') as (s'&g'&Es&Eg).
  { unfold user_start, user_goal in *. destruct (aFwd (wP w)); eauto. }
  destruct (Search_total fwd abs E (wG w) (wE w) fuel clk (set_params (wP w) q) s' g' k P) as ([[b path] cost]&p'&HE&Hw'); try done; cbn.
  - destruct (aReinit (wP w)); lia.
  - destruct (aReinit (wP w)); lra.
  - exists b, path, cost, p'. split; [done|]. cbn in Hw'. congruence.
Qed.
Print Assumptions C53_replan_total.
(** C53: so does the repair after a change of edge costs: any new graph with its environment, any list of states. *)
Theorem C53_costs_changed_total : forall fwd abs E w G' e' l, dreach fwd abs E w -> aWrap (wP w) = false ->
  good_env fwd E G' e' -> (eSize (wE w) <= eSize e')%nat -> dsees fwd abs G' e' (aStart (wP w)) (aGoal (wP w)) ->
  Forall (fun t => (t < eSize e')%nat) l -> aIter (wP w) + 1 < 65536 ->
  exists p', ad_costs_changed e' (wP w) l = Ok p' /\ aWrap p' = false.
Proof.
  intros fwd abs E w G' e' l HR Hw Hge Hsz Hse Hl Hit.
  destruct (costs_spec fwd abs E (wG w) (wE w) G' e' (wP w) l (dreach_pinv fwd abs E w HR Hw) Hge Hsz Hse Hl Hit) as (p'&HE&Hw'&_).
  exists p'. split; [done|]. congruence.
Qed.
Print Assumptions C53_costs_changed_total.

(** C54: the instrumented loop of ComputePath is the loop of ComputePath. *)
Theorem C54_log_faithful : forall e fwd clk eps iter call goal fuel c n log,
  ad_loop e fwd fuel clk eps iter call goal c n = (do r <- ad_log e fwd fuel clk eps iter call goal c n log; Ok (r.1.1, r.1.2)).
Proof.
  intros e fwd clk eps iter call goal fuel. induction fuel as [|fuel IH]; intros c n log; [done|]. cbn [ad_loop ad_log].
  destruct (dlift DBadState (rdst c goal)) as [ga| | |]; cbn [obind]; try done.
  destruct (dlift DHeap (getminkeyheap ckeyops (cOpen c))) as [mk| | |]; cbn [obind]; try done.
  destruct (negb (emptyheap (cOpen c)) && (k0 mk <? INFINITECOST) && goal_open eps ga mk); [|done]. destruct (clk n); [|done].
  destruct (dlift DHeap (deleteminheap ckeyops (cOpen c))) as [r| | |]; cbn [obind]; try done.
  destruct (ad_expand e fwd eps iter call r.1 (mkCore (cSt c) r.2 (cInc c))) as [c'| | |]; cbn [obind]; try done.
Qed.
Print Assumptions C54_log_faithful.
Lemma log_more e fwd clk eps iter call goal : forall fuel k c n log r, ad_log e fwd fuel clk eps iter call goal c n log = Ok r ->
  ad_log e fwd (fuel + k) clk eps iter call goal c n log = Ok r /\ (length r.2 + 1 <= length log + fuel)%nat.
Proof.
  induction fuel as [|fuel IH]; intros k c n log r; [done|]. cbn [ad_log Nat.add].
  destruct (dlift DBadState (rdst c goal)) as [ga| | |]; cbn [obind]; try done.
  destruct (dlift DHeap (getminkeyheap ckeyops (cOpen c))) as [mk| | |]; cbn [obind]; try done.
  destruct (negb (emptyheap (cOpen c)) && (k0 mk <? INFINITECOST) && goal_open eps ga mk); [|intros [= <-]; cbn; split; [done|lia]].
  destruct (clk n); [|intros [= <-]; cbn; split; [done|lia]].
  destruct (dlift DHeap (deleteminheap ckeyops (cOpen c))) as [r'| | |]; cbn [obind]; try done.
  destruct (ad_expand e fwd eps iter call r'.1 (mkCore (cSt c) r'.2 (cInc c))) as [c'| | |]; cbn [obind]; try done.
  intros HE. destruct (IH k _ _ _ _ HE) as (H1&H2). split; [done|]. rewrite app_length in H2. cbn in H2. lia.
Qed.
Lemma at_dloop_wrap e clk p0 p n : at_dloop e clk p0 p n -> aWrap p = false -> aWrap p0 = false.
Proof.
  induction 1 as [p HE|p n p1 p2 r c n' _ IH _ E1 E2 _].
  - destruct (prep_rest e p0 p HE) as (_&_&_&_&_&_&_&W&_). intros Hw. by apply W.
  - destruct (first_iter_rest p) as (_&W0). destruct (eps_step_rest (ad_first_iter p) (aFirst p)) as (_&W1).
    destruct (rebuild_rest _ _ E1) as (_&W2). destruct (reprio_rest _ _ E2) as (_&W3).
    intros Hw. apply IH, W0, W1. rewrite <- W2, <- W3. by destruct (r =? 1).
Qed.
Lemma at_dloop_linv fwd abs E G e clk p0 s g : dpinv fwd abs E G e p0 -> aStart p0 = Some s -> aGoal p0 = Some g ->
  forall p n, at_dloop e clk p0 p n -> aWrap p = false -> dlinv fwd abs E G e s g p.
Proof.
  intros P0 Hs Hg p n. induction 1 as [p HE|p n p1 p2 r c n' Hal IH Hclk E1 E2 E3]; intros Hw.
  - destruct (prep_rest e p0 p HE) as (_&_&_&_&_&_&_&W&Hset).
    destruct (prep_spec fwd abs E G e p0 P0) as (p'&s'&g'&E1&Es'&Eg'&L1&_).
    { intros Hr. split; [by apply W; auto|]. rewrite Hs, Hg. done. }
    unfold dprep in E1. cbv zeta in HE. rewrite HE in E1. injection E1 as <-. rewrite Hs in Es'. rewrite Hg in Eg'. by injection Es' as <-; injection Eg' as <-.
  - assert (dbody e clk (aFirst p) p (S n) = Ok (r, after_improve p2 r c, n')) as EB.
    { unfold dbody. rewrite E1. cbn [obind]. rewrite E2. cbn [obind]. rewrite E3. done. }
    destruct (body_rest _ _ _ _ _ _ _ _ EB) as (_&W). fold (after_improve p2 r c) in Hw. destruct (W Hw) as (Hw1&Hit).
    destruct (body_spec fwd abs E G e s g clk (aFirst p) p (S n) (IH Hw1) (or_introl Hit)) as (r'&p'&n''&EB'&L'&_). rewrite EB in EB'. by injection EB' as <- <- <-.
Qed.
(** C54: whenever ComputePath is called by replan, it expands a state at most twice, and a state that had not been expanded before in this search at
    most once; so it expands at most twice as many states as there are. *)
Theorem C54_at_most_twice : forall fwd abs E w clk q p n p1 p2 s g c0, dreach fwd abs E w -> good_params1 E q ->
  aStart (wP w) = Some s -> aGoal (wP w) = Some g ->
  at_dloop (wE w) clk (set_params (wP w) q) p n ->
  ad_rebuild (ad_eps_step (ad_first_iter p) (aFirst p)) = Ok p1 -> ad_reprio p1 = Ok p2 -> aWrap p2 = false ->
  refresh (wE w) fwd (aCall p2) true (aC p2) g = Ok c0 ->
  exists c n' log, ad_log (wE w) fwd (S (S (2 * eSize (wE w)))) clk (aEps p2) (aIter p2) (aCall p2) g c0 (S n) [] = Ok (c, n', log) /\
    (length log <= 2 * eSize (wE w))%nat /\
    forall x, (count_occ Nat.eq_dec log x <= 2)%nat /\
      ((forall a, cSt c0 !! x = Some a -> sCall a = aCall p2 -> sV a = INFINITECOST) -> (count_occ Nat.eq_dec log x <= 1)%nat).
Proof.
  intros fwd abs E w clk q p n p1 p2 s g c0 HR Hq Hs Hg Hal E1 E2 Hw2 Eref.
  destruct (first_iter_rest p) as (_&W0). destruct (eps_step_rest (ad_first_iter p) (aFirst p)) as (_&W1).
  destruct (rebuild_rest _ _ E1) as (_&W2). destruct (reprio_rest _ _ E2) as (_&W3). rewrite W3, W2 in Hw2.
  pose proof (W0 (W1 Hw2)) as Hwp. pose proof (at_dloop_wrap _ _ _ _ _ Hal Hwp) as Hw0. cbn in Hw0.
  pose proof (use_dpinv fwd abs E w q HR Hq Hw0) as P0.
  pose proof (at_dloop_linv fwd abs E (wG w) (wE w) clk _ s g P0 Hs Hg p n Hal Hwp) as L.
  destruct (first_iter_spec fwd abs E (wG w) (wE w) s g p L) as (L0&_&Hi0&_).
  destruct (eps_step_spec fwd abs E (wG w) (wE w) s g _ (aFirst p) L0 Hi0 (or_introl Hw2)) as (L1&_&I1&_).
  destruct (rebuild_spec fwd abs E (wG w) (wE w) s g _ L1) as (p1'&E1'&L2&_&N2&I2&_); [lia|]. rewrite E1 in E1'. injection E1' as <-.
  destruct (reprio_spec fwd abs E (wG w) (wE w) s g _ L2 N2) as (p2'&E2'&L3&_&N3&R3&I3&_). rewrite E2 in E2'. injection E2' as <-.
  assert (0 < aIter p2) as Hi by lia. clear L L0 L1 L2 I1 I2 I3 E1 E2 Hal.
  destruct (linv_search _ _ _ _ _ _ _ p2 L3) as (m&z&Q). pose proof L3 as (P&_&Hv&_&Hgoal).
  destruct (linv_env _ _ _ _ _ _ _ p2 L3) as (A1&A2&A3&A4&A5&A6).
  pose proof Q as [D V B I Z N C K A T]. rewrite N3, R3 in *. pose proof (p_cnt _ _ _ _ _ _ P) as [Hc0 _].
  destruct (p_goal _ _ _ _ _ _ P g Hgoal) as [a0 Ea0].
  destruct (get_refresh_d (wE w) fwd true (aCall p2) (aIter p2) (aC p2) m z g D Hc0) as (c1&Eg&D1&Hv1&Hcur&HL&Hp&Hpc).
  { by apply (da_dom _ _ _ _ _ _ _ _ _ D g a0). }
  assert (refresh (wE w) fwd (aCall p2) true (aC p2) g = Ok c1) as Ec1.
  { unfold GetState in Eg. rewrite Ea0 in Eg. destruct (eSize (wE w) <=? g)%nat; [discriminate|]. by apply (dlift_inv DBadState). }
  rewrite Eref in Ec1. injection Ec1 as <-. specialize (Hv1 Hv).
  assert (sinv (wG w) (wE w) fwd s (aEps p2) (aCall p2) (aIter p2) c0 m z) as I1.
  { split; try done.
    - intros u k Hk. rewrite HL. by apply (K eq_refl).
    - by apply (vok_ext fwd s (lk (wE w) fwd (aCall p2) (aC p2))).
    - by apply (bok_ext (wG w) fwd s _ (lk (wE w) fwd (aCall p2) (aC p2))).
    - by apply (iok_ext (wG w) _ (current (aCall p2) (aC p2)) _ (lk (wE w) fwd (aCall p2) (aC p2))).
    - intros x. rewrite HL. intros Hx. apply (safe_ext (wG w) fwd s (lk (wE w) fwd (aCall p2) (aC p2))); [done|]. by apply (C eq_refl Hi x).
    - intros x Cx. rewrite HL. intros Hx. by apply (C eq_refl Hi x). }
  assert (forall x, mu (aIter p2) (lk (wE w) fwd (aCall p2) c0 x) <= 2)%nat as Hmu.
  { intros x. unfold mu. destruct (sIter _ =? _); [lia|]. destruct (sV _ =? INFINITECOST); lia. }
  set (M := sum_list_with (fun x => mu (aIter p2) (lk (wE w) fwd (aCall p2) c0 x)) (seq 0 (eSize (wE w)))).
  assert (M <= 2 * eSize (wE w))%nat as HM.
  { assert (M <= sum_list_with (fun _ => 2%nat) (seq 0 (eSize (wE w))))%nat by (apply sum_mono; intros x; apply Hmu).
    assert (forall l : list nat, sum_list_with (fun _ => 2%nat) l = (2 * length l)%nat) as Hs0.
    { induction l as [|y l IHl]; cbn; [done|]. rewrite IHl. lia. }
    rewrite Hs0, seq_length in *. lia. }
  destruct (log_spec (wG w) (wE w) fwd abs E s g A1 A2 A3 A4 A5 A6 (aEps p2) (p_eps _ _ _ _ _ _ P) clk (aCall p2) (aIter p2) Hi Hc0 (S M)
     c0 m z (S n) [] I1 Hcur) as (c2&m2&z2&n2&log2&EL&I2&X2&Hn2&Hcnt&_).
  { intros Ha. rewrite HL. auto. }
  { fold M. lia. }
  destruct (log_more _ _ _ _ _ _ _ _ (2 * eSize (wE w) + 1 - M) _ _ _ _ EL) as (EL2&Hlen). cbn [length snd Nat.add] in Hlen.
  replace (S M + (2 * eSize (wE w) + 1 - M))%nat with (S (S (2 * eSize (wE w)))) in EL2 by lia.
  exists c2, n2, log2. split; [done|]. split; [lia|].
  intros x. specialize (Hcnt x). cbn [count_occ] in Hcnt. specialize (Hmu x). split; [lia|]. intros Hx.
      assert (mu (aIter p2) (lk (wE w) fwd (aCall p2) c0 x) <= 1)%nat; [|lia]. unfold mu. destruct (sIter _ =? _); [lia|].
      assert (sV (lk (wE w) fwd (aCall p2) c0 x) = INFINITECOST) as ->; [|by rewrite Z.eqb_refl].
      unfold lk. destruct (cSt c0 !! x) as [a|] eqn:Ea; [|done]. destruct (sCall a =? aCall p2) eqn:Ec; [|done]. apply Hx; [done|lia].
Qed.
Print Assumptions C54_at_most_twice.
(** C55: "no solution" with time left means that no path is cheaper than INFINITECOST once inflated by E (the largest eps used). *)
Theorem C55_failure_means_no_cheap_path : forall fwd abs E w fuel clk q path cost p', dreach fwd abs E w -> good_params1 E q -> (forall i, clk i = true) ->
  ad_replan fuel (wE w) clk (wP w) q = Ok (false, path, cost, p') -> aWrap p' = false ->
  path = [] /\ forall s g l C, user_start (wP w) = Some s -> user_goal (wP w) = Some g -> route (inflate E) (gedge fwd (wG w)) l s g C -> INFINITECOST <= C.
Proof.
  intros fwd abs E w fuel clk q path cost p' HR Hq Hc HE Hw.
  destruct (use_dspec fwd abs E w fuel clk q HR Hq false path cost p' HE Hw) as (_&Hw0&s'&g'&Es&Eg&_&_&_&_&_&Hx).
  destruct (Hx eq_refl) as (->&H5). destruct (H5 Hc) as (ep&Hep&Hnc). split; [done|].
  intros s g l C Hs Hg Hro. pose proof (dgedge_pos fwd abs E w HR Hw0) as Hpos.
  rewrite Hs in Es. rewrite Hg in Eg. injection Es as ->. injection Eg as ->.
  destruct (route_weights fwd (wG w) (inflate E) (inflate ep) l _ _ C (fun _ _ => True) Hpos Hro) as (C2&HR2&Hle).
  assert (C2 <= C) by (apply Hle; intros c Hc0; apply inflate_mono; [lia|done]).
  assert (INFINITECOST <= C2); [|lia]. apply Hnc. apply route_sr in HR2. by destruct fwd.
Qed.
Print Assumptions C55_failure_means_no_cheap_path.
