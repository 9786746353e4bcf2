(** C22: failure of a search that starts from scratch. *)
From Coq Require Import ZifyBool ZifyNat QArith Qround Lqa.
From Verif Require Import Base KeyModel HeapModel ListModel AraModel AraSpec AraProofs AraPath AraProofs3 AraProofs4 AraProofs5 AraProofs6 AraProofs7 AraProofs8 AraProofs9 AraProps AraProps2.
Local Open Scope Z_scope.

(** C22: when the search starts from scratch (new planner, new start, costs changed, ...), "no solution" with time left means that
    no path is cheaper than INFINITECOST once inflated by the larger of the initial and the final eps of this call; in
    particular, with eps = 1, that every path costs at least INFINITECOST. *)
Theorem C22_failure_from_scratch : forall fwd E w fuel clk q path cost p', reach fwd true E w -> good_params E q -> (forall i, clk i = true) ->
  aReinit (wP w) = true ->
  replan fuel (wE w) clk (wP w) q = Ok (false, path, cost, p') -> aWrap p' = false ->
  forall B s g l C, (pInit q <= B)%Q -> (pFinal q <= B)%Q -> user_start (wP w) = Some s -> user_goal (wP w) = Some g ->
    (route (inflate B) (gedge fwd (wG w)) l s g C -> INFINITECOST <= C) /\
    ((B <= 1)%Q -> route (fun x => x) (gedge fwd (wG w)) l s g C -> INFINITECOST <= C).
Proof.
  intros fwd E w fuel clk q path cost p' HR Hq Hc Hre HE Hw B s g l C HB1 HB2 Hs Hg.
  assert (aWrap (wP w) = false) as Hw0.
  { unfold replan in HE. by destruct (Search_rest _ _ _ _ _ _ HE) as (_&_&_&_&_&_&W); apply W. }
  pose proof (gedge_pos fwd true E w HR Hw0) as Hpos. pose proof (use_pinv fwd true E w q HR Hq Hw0) as P.
  destruct (Search_fail fwd true E (wG w) (wE w) fuel clk _ path cost p' B P Hc Hre HE Hw HB1 HB2) as (s'&g'&ep&Es&Eg&Hep&Hnc).
  cbn in Es, Eg. pose proof (p_fwd _ _ _ _ _ _ P) as Hfw. cbn in Hfw. unfold user_start in Hs. unfold user_goal in Hg. rewrite Hfw in Hs, Hg.
  assert (forall l C, route (inflate ep) (gedge fwd (wG w)) l s g C -> INFINITECOST <= C) as HN.
  { intros l' C' HR2. apply (Hnc eq_refl). apply route_sr in HR2. destruct fwd; congruence. }
  split.
  - intros Hro. destruct (route_weights fwd (wG w) (inflate B) (inflate ep) l _ _ C (fun _ _ => True) Hpos Hro) as (C2&HR2&Hle).
    assert (C2 <= C) by (apply Hle; intros c Hc0; apply inflate_mono; [lia|done]). specialize (HN _ _ HR2). lia.
  - intros HB Hro. destruct (route_weights fwd (wG w) (fun x => x) (inflate ep) l _ _ C (fun _ _ => True) Hpos Hro) as (C2&HR2&Hle).
    assert (C2 <= C) by (apply Hle; intros c Hc0; rewrite inflate_one by (first [lia|lra]); lia). specialize (HN _ _ HR2). lia.
Qed.
Print Assumptions C22_failure_from_scratch.
