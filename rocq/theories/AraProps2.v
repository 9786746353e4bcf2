(** C25 and C36; concrete worlds: non-vacuity of C20-C24 and refutations of stronger claims. *)
From Coq Require Import ZifyBool ZifyNat QArith Qround Lqa.
From Verif Require Import Base KeyModel HeapModel HeapProofs ListModel ListProofs AngleModel AngleProofs AraModel AraSpec AraProofs AraProofs2 AraPath AraProofs3 AraProofs4 AraProofs5 AraProofs6 AraProofs7 AraProofs8 AraProps.
Local Open Scope Z_scope.

(** C25: any history of fewer than 65536 replans on one planner object (any heuristic, any starts and goals) runs normally and
    ends in a world in which C20-C24 apply. *)
Theorem C25_history_total : forall fwd E e fuel k s g acts,
  good_env fwd E (nbrs e fwd) e -> (5 <= E < inject_Z INFINITECOST)%Q -> (S k < fuel)%nat ->
  (s < eSize e)%nat -> (g < eSize e)%nat -> Forall (good_act E e k) acts -> Z.of_nat (replans acts * fuel) < 65536 ->
  exists rs p', play e fuel (ASetStart s :: ASetGoal g :: acts) (new_ara fwd) = Ok (rs, p') /\ length rs = replans acts /\
    reach fwd false E (mkWorld (nbrs e fwd) e p') /\ aWrap p' = false.
Proof.
  intros fwd E e fuel k s g acts Hge HE Hf Hs Hg Hall Hn. cbn [play].
  destruct (set_start_total e (new_ara fwd) s Hs) as (p1&E1&U1&U2&I1&C1&W1). rewrite E1. cbn [obind].
  destruct (set_goal_total e p1 g Hg) as (p2&E2&V1&V2&I2&C2&W2). rewrite E2. cbn [obind].
  assert (reach fwd false E (mkWorld (nbrs e fwd) e p2)) as HR.
  { eapply (reach_goal _ _ _ _ e); [eapply (reach_start _ _ _ _ e); [apply reach_new; try done; apply any_sees|try done..]|try done..]; by right. }
  destruct (play_total fwd E e fuel k Hge Hf acts p2 Hall HR) as (rs&p'&Ep&HR'&Hw'&Hl); try congruence.
  - by rewrite W2, W1.
  - rewrite C2, C1. cbn. nia.
  - rewrite I2, I1. cbn. lia.
  - exists rs, p'. done.
Qed.
Print Assumptions C25_history_total.
Lemma reinit_wrap e p p' : ReInitializeSearchStateSpace e p = Ok p' -> aWrap p' = false -> aWrap p = false.
Proof.
  unfold ReInitializeSearchStateSpace. wcbn. intros HE. apply obind_ok in HE as (h&_&HE). apply obind_ok in HE as (l&_&HE).
  destruct (aStart p), (aGoal p); try done; repeat (apply obind_ok in HE as (?&_&HE)); injection HE as <-; wcbn. by intros [? _]%orb_false_iff.
Qed.
(** C25: when a search starts from scratch, every state that counts as belonging to this search is blank, but the start. *)
Theorem C25_no_stale_data : forall fwd con E w q p1 p', reach fwd con E w -> good_params E q ->
  p1 = (if aReeval (wP w) then with_core (wP w) (Reevaluatehvals (wE w) fwd (aC (wP w))) else wP w) ->
  ReInitializeSearchStateSpace (wE w) (set_params p1 q) = Ok p' -> aWrap p' = false ->
  forall s a, cSt (aC p') !! s = Some a -> sCall a = aCall p' ->
    sV a = INFINITECOST /\ sPred a = None /\ sNext a = None /\ sG a = if decide (aStart p' = Some s) then 0 else INFINITECOST.
Proof.
  intros fwd con E w q p1 p' HR Hq -> HE Hw.
  assert (aWrap (wP w) = false) as Hw0.
  { apply (reinit_wrap _ _ _ HE) in Hw. by destruct (aReeval (wP w)). }
  eapply reinit_fresh; [|exact HE|done]. apply pinv_params; [|done].
  destruct (aReeval (wP w)) eqn:Er; [|by apply reach_pinv]. apply pinv_hvals; [by apply reach_pinv|done].
Qed.
Print Assumptions C25_no_stale_data.

(** C36: an anytime planner never gets worse: a second replan without changes in between finds a solution not more expensive. *)
Theorem C36_replan_monotone : forall fwd con E G e p fuel1 fuel2 clk1 clk2 q1 q2 b1 path1 cost1 p1 b2 path2 cost2 p2,
  reach fwd con E (mkWorld G e p) -> good_params E q1 -> good_params E q2 -> clk1 0%nat = true -> clk2 0%nat = true ->
  replan fuel1 e clk1 p q1 = Ok (b1, path1, cost1, p1) -> replan fuel2 e clk2 p1 q2 = Ok (b2, path2, cost2, p2) -> aWrap p2 = false ->
  cost2 <= cost1 /\ (b1 = true -> b2 = true).
Proof.
  intros fwd con E G e p fuel1 fuel2 clk1 clk2 q1 q2 b1 path1 cost1 p1 b2 path2 cost2 p2 HR Hq1 Hq2 Hc1 Hc2 E1 E2 Hw2.
  assert (aWrap p1 = false) as Hw1 by (unfold replan in E2; by destruct (Search_rest _ _ _ _ _ _ E2) as (_&_&_&_&_&_&W); apply W).
  assert (reach fwd con E (mkWorld G e p1)) as HR1.
  { eapply reach_replan; [|exact E1]. by apply reach_params. }
  destruct (use_spec fwd con E (mkWorld G e p) fuel1 clk1 q1 HR Hq1 b1 path1 cost1 p1 E1 Hw1) as (_&Hr1&s&g&_&_&_&Eg&Hx1).
  destruct (use_spec fwd con E (mkWorld G e p1) fuel2 clk2 q2 HR1 Hq2 b2 path2 cost2 p2 E2 Hw2) as (_&_&s'&g'&_&_&_&Eg'&Hx2).
  cbn [wP wE wG] in *.
  destruct (Hx1 Hc1) as (_&_&Hb1&_&_&_&_&Hg1). destruct (Hx2 Hc2) as (_&_&Hb2&_&_&Hmono&_). specialize (Hmono Hr1).
  assert (g' = g) as ->.
  { unfold replan in E1. destruct (Search_rest _ _ _ _ _ _ E1) as (Hg&_). cbn in Hg. congruence. }
  split; [lia|]. intros Hb. apply Hb2. apply Hb1 in Hb. lia.
Qed.
Print Assumptions C36_replan_monotone.

(** ** Concrete worlds (forward search on a table) *)
Definition tbl (l : list (list (nat * Z))) (s : nat) : list (nat * Z) := nth s l [].
Definition env_of (n : nat) (l : list (list (nat * Z))) (h : list Z) : aenv := mkEnv n (tbl l) (fun _ => []) (fun s => nth s h 0) (fun _ => 0).
Definition yes (_ : nat) : bool := true.
Definition okE (n : nat) (l : list (list (nat * Z))) (h : list Z) : bool :=
  (n <? 1000)%nat && forallb (fun x => forallb (fun tc => (tc.1 <? n)%nat && (0 <? tc.2) && (tc.2 <=? INFINITECOST)) x) l &&
  forallb (fun x => (0 <=? x) && (5 * x <? 2147483648)) h.
Definition okC (l : list (list (nat * Z))) (h : list Z) (con : bool) : bool :=
  negb con || forallb (fun s => forallb (fun tc => nth s h 0 <=? tc.2 + nth tc.1 h 0) (tbl l s)) (seq 0 (length l)).
Lemma tbl_in l s tc : tc ∈ tbl l s -> exists x, x ∈ l /\ tc ∈ x /\ (s < length l)%nat.
Proof.
  unfold tbl. intros Hin. destruct (decide (s < length l)%nat) as [Hs|Hs]; [|rewrite nth_overflow in Hin by lia; by apply elem_of_nil in Hin].
  exists (nth s l []). split_and!; try done. apply elem_of_list_In. by apply nth_In.
Qed.
Lemma okE_good n l h : okE n l h = true -> good_env true 5 (tbl l) (env_of n l h).
Proof.
  unfold okE. rewrite !andb_true_iff, !forallb_forall. intros ((Hn&Hl)&Hh).
  assert (forall s, 0 <= nth s h 0 /\ 5 * nth s h 0 < 2147483648) as Hx.
  { intros s. destruct (decide (s < length h)%nat); [|rewrite nth_overflow by lia; lia]. specialize (Hh (nth s h 0) ltac:(by apply nth_In)). lia. }
  split; cbn.
  - lia.
  - intros s t c Hin. destruct (tbl_in _ _ _ Hin) as (x&H1&H2&_). apply elem_of_list_In in H1, H2. specialize (Hl x H1). rewrite forallb_forall in Hl. specialize (Hl _ H2). cbn [fst snd] in Hl. lia.
  - intros s. apply Hx.
  - intros s. specialize (Hx s). change 5%Q with (inject_Z 5). rewrite <- inject_Z_mult. rewrite <- Zlt_Qlt. lia.
Qed.
Lemma okC_sees n l h con go : okC l h con = true -> (con = true -> forall s, go = Some s -> nth s h 0 = 0) -> sees true con (tbl l) (env_of n l h) go.
Proof.
  intros Hc Hz. split; cbn; [done|done|]. intros -> s t c Hin. unfold okC in Hc. cbn in Hc. rewrite forallb_forall in Hc.
  destruct (tbl_in _ _ _ Hin) as (x&_&_&Hs). specialize (Hc s). rewrite in_seq in Hc. specialize (Hc ltac:(lia)). rewrite forallb_forall in Hc.
  apply elem_of_list_In in Hin. specialize (Hc _ Hin). cbn in Hc. lia.
Qed.
(** A planner with start and goal set. *)
Definition ready (e : aenv) (s g : nat) : ares ara := do p <- set_start e (new_ara true) s; set_goal e p g.
Lemma ready_reach n l h con s g : okE n l h = true -> okC l h con = true -> (s < n)%nat -> (g < n)%nat -> (con = true -> nth g h 0 = 0) ->
  exists p, ready (env_of n l h) s g = Ok p /\ reach true con 5 (mkWorld (tbl l) (env_of n l h) p) /\ user_start p = Some s /\ user_goal p = Some g /\ aWrap p = false.
Proof.
  intros He Hc Hs Hg Hz. unfold ready. pose proof (okE_good _ _ _ He) as Hge. set (e := env_of n l h) in *.
  destruct (set_start_total e (new_ara true) s Hs) as (p1&E1&U1&U2&I1&C1&W1). rewrite E1. cbn [obind].
  destruct (set_goal_total e p1 g Hg) as (p2&E2&V1&V2&I2&C2&W2). rewrite E2.
  destruct (set_start_rest _ _ _ _ E1) as (F1&_). destruct (set_goal_rest _ _ _ _ E2) as (F2&_). cbn in F1. rewrite F1 in F2.
  exists p2. split_and!; try congruence; try (by rewrite W2, W1).
  unfold user_goal, user_start in *. rewrite F1, F2 in *. cbn in U2.
  eapply (reach_goal _ _ _ _ e); [eapply (reach_start _ _ _ _ e); [apply reach_new; try done|try done..]|try done..].
  - by apply okC_sees.
  - apply okC_sees; [done|]. rewrite U2. done.
  - by right.
  - apply okC_sees; [done|]. rewrite V1. intros Hcon x [= <-]. by apply Hz.
  - by right.
Qed.
(** Looking at the result of a replan. *)
Definition seen (r : ares (bool * list nat * Z * ara)) : option (bool * list nat * Z * Q * bool) :=
  match r with Ok (b, l, c, p) => Some (b, l, c, Qred (aSat p), aWrap p) | _ => None end.
Lemma seen_ok r b l c sat wr : seen r = Some (b, l, c, sat, wr) -> exists p, r = Ok (b, l, c, p) /\ (aSat p == sat)%Q /\ aWrap p = wr.
Proof. unfold seen. destruct r as [[[[b' l'] c'] p]| | |]; try done. intros [= <- <- <- <- <-]. exists p. split_and!; try done. symmetry. apply Qred_correct. Qed.
Definition go (e : aenv) (s g : nat) (clk : nat -> bool) (q : params) := do p <- ready e s g; replan 20 e clk p q.
Lemma go_seen n l h con s g clk q r : okE n l h = true -> okC l h con = true -> (s < n)%nat -> (g < n)%nat -> (con = true -> nth g h 0 = 0) ->
  seen (go (env_of n l h) s g clk q) = Some r ->
  exists p p', reach true con 5 (mkWorld (tbl l) (env_of n l h) p) /\ user_start p = Some s /\ user_goal p = Some g /\ aWrap p = false /\
    replan 20 (env_of n l h) clk p q = Ok (r.1.1, p') /\ (get_solution_eps p' == r.1.2)%Q /\ aWrap p' = r.2 /\ ready (env_of n l h) s g = Ok p.
Proof.
  intros H1 H2 H3 H4 H5 H6. destruct (ready_reach n l h con s g H1 H2 H3 H4 H5) as (p&Ep&HR&Hs&Hg&Hw). unfold go in H6. rewrite Ep in H6. cbn [obind] in H6.
  destruct r as [[[[b l'] c] sat] wr]. destruct (seen_ok _ _ _ _ _ _ H6) as (p'&E'&Hsat&Hw'). exists p, p'. done.
Qed.

(** Six states; the planner with eps schedule 2, 1 finds the optimum 13. *)
Definition l6 : list (list (nat * Z)) := [[(2%nat,3);(1%nat,1)]; [(2%nat,1)]; [(3%nat,1);(4%nat,3)]; [(4%nat,1)]; [(5%nat,9)]; []].
Definition h6 : list Z := [11;10;9;10;9;0].
Definition q21 := mkParams 2 1 1 false.
Example hypotheses_met : exists p p', reach true true 5 (mkWorld (tbl l6) (env_of 6 l6 h6) p) /\ good_params 5 q21 /\ user_start p = Some 0%nat /\
  user_goal p = Some 5%nat /\ replan 20 (env_of 6 l6 h6) yes p q21 = Ok (true, [0;1;2;3;4;5]%nat, 13, p') /\ aWrap p' = false /\ (get_solution_eps p' == 1)%Q.
Proof.
  destruct (go_seen 6 l6 h6 true 0 5 yes q21 (true, [0;1;2;3;4;5]%nat, 13, 1%Q, false)) as (p&p'&?&?&?&?&?&?&?&_); [by vm_compute|by vm_compute|lia|lia|done|by vm_compute|].
  exists p, p'. split_and!; try done; try (unfold good_params; cbn; lra).
Qed.

(** C21: cost <= eps * optimum is refuted: the rounding of (int)(eps*h) may cost up to 1 per edge. eps 1.1, reported cost 15, optimum 13. *)
Definition q11 := mkParams (11#10) (11#10) 1 false.
Theorem C21_exact_eps_refuted : exists p path p' opt, reach true true 5 (mkWorld (tbl l6) (env_of 6 l6 h6) p) /\ good_params 5 q11 /\
  replan 20 (env_of 6 l6 h6) yes p q11 = Ok (true, path, 15, p') /\ aWrap p' = false /\ (get_solution_eps p' == 11 # 10)%Q /\
  user_start p = Some 0%nat /\ user_goal p = Some 5%nat /\ route (fun x => x) (gedge true (tbl l6)) opt 0%nat 5%nat 13 /\ ((11#10) * inject_Z 13 < inject_Z 15)%Q.
Proof.
  destruct (go_seen 6 l6 h6 true 0 5 yes q11 (true, [0;1;2;4;5]%nat, 15, (11#10)%Q, false)) as (p&p'&?&?&?&?&?&?&?&_); [by vm_compute|by vm_compute|lia|lia|done|by vm_compute|].
  exists p, [0;1;2;4;5]%nat, p', [0;1;2;3;4;5]%nat. split_and!; try done; try (unfold good_params; cbn; lra).
  change 13 with (1 + (1 + (1 + (1 + (9 + 0))))). repeat (apply (route_cons (fun x => x)); [cbn; repeat (first [left|right])|]). apply route_one.
Qed.
Print Assumptions C21_exact_eps_refuted.

(** C22: "no solution" does not mean that there is none: an edge of cost 3*10^8 with eps 5 has a priority above INFINITECOST. *)
Definition l2 : list (list (nat * Z)) := [[(1%nat, 300000000)]; []].
Definition h2 : list Z := [300000000; 0].
Definition q5 := mkParams 5 1 1 false.
Theorem C22_expensive_solution_refuted : exists p p', reach true true 5 (mkWorld (tbl l2) (env_of 2 l2 h2) p) /\ good_params 5 q5 /\
  user_start p = Some 0%nat /\ user_goal p = Some 1%nat /\ replan 20 (env_of 2 l2 h2) yes p q5 = Ok (false, [], INFINITECOST, p') /\ aWrap p' = false /\
  route (fun x => x) (gedge true (tbl l2)) [0;1]%nat 0%nat 1%nat 300000000 /\ 300000000 < INFINITECOST.
Proof.
  destruct (go_seen 2 l2 h2 true 0 1 yes q5 (false, [], INFINITECOST, inject_Z INFINITECOST, false)) as (p&p'&?&?&?&?&?&?&?&_); [by vm_compute|by vm_compute|lia|lia|done|by vm_compute|].
  exists p, p'. split_and!; try done; try (unfold good_params; cbn; lra).
  change 300000000 with (300000000 + 0). apply (route_cons (fun x => x)); [cbn; left|apply route_one].
Qed.
Print Assumptions C22_expensive_solution_refuted.
(** Non-vacuity of C22: a goal that cannot be reached. *)
Example C22_met : exists p p', reach true true 5 (mkWorld (tbl [[(1%nat,1)];[];[]]) (env_of 3 [[(1%nat,1)];[];[]] []) p) /\
  replan 20 (env_of 3 [[(1%nat,1)];[];[]] []) yes p q5 = Ok (false, [], INFINITECOST, p') /\ aWrap p' = false /\ user_goal p = Some 2%nat.
Proof.
  destruct (go_seen 3 [[(1%nat,1)];[];[]] [] true 0 2 yes q5 (false, [], INFINITECOST, inject_Z INFINITECOST, false)) as (p&p'&?&?&?&?&?&?&?&_); [by vm_compute|by vm_compute|lia|lia|done|by vm_compute|].
  exists p, p'. done.
Qed.

(** C20 needs positive costs: a zero-cost edge makes replan throw "g-values are non-decreasing". *)
Theorem C20_zero_cost_throws_refuted : exists l, (forall s t c, (t, c) ∈ tbl l s -> 0 <= c) /\
  go (env_of 3 l []) 0 2 yes q5 = Exn XNonDecreasing.
Proof.
  exists [[(1%nat,0)];[(2%nat,0)];[]]. split; [|by vm_compute].
  intros [|[|[|s]]] t c Hin; cbn in Hin; repeat (apply elem_of_cons in Hin as [Hin|Hin]; [injection Hin as -> ->; lia|]); try by apply elem_of_nil in Hin.
  destruct s; by apply elem_of_nil in Hin.
Qed.
Print Assumptions C20_zero_cost_throws_refuted.
Lemma play_reach fuel e acts G : good_env true 5 G e -> (forall go, sees true true G e go) -> forall p0 rs p1,
  Forall (fun a => match a with AReplan q _ => good_params 5 q | _ => True end) acts -> reach true true 5 (mkWorld G e p0) ->
  play e fuel acts p0 = Ok (rs, p1) -> reach true true 5 (mkWorld G e p1).
Proof.
  intros Hge Hse. induction acts as [|a acts IH]; intros p0 rs p1 Hall HR Hpl; [by injection Hpl as <- <-|]. apply Forall_cons in Hall as [Ha Hall].
  destruct a as [id|id| | |q clk]; cbn [play] in Hpl.
  - apply obind_ok in Hpl as (p2&E2&Hpl). eapply IH; [done| |exact Hpl]. eapply (reach_start _ _ _ _ e); try done. by right.
  - apply obind_ok in Hpl as (p2&E2&Hpl). eapply IH; [done| |exact Hpl]. eapply (reach_goal _ _ _ _ e); try done. by right.
  - eapply IH; [done| |exact Hpl]. by apply reach_scratch.
  - eapply IH; [done| |exact Hpl]. eapply reach_costs; done.
  - apply obind_ok in Hpl as ([r p2]&E2&Hpl). apply obind_ok in Hpl as ([rs2 p3]&E3&Hpl). injection Hpl as <- <-. eapply IH; [done| |exact E3]. eapply reach_replan; [|exact E2]. by apply reach_params.
Qed.
(** C20 needs time for one question to the clock: without any, replan follows the data of an earlier call and throws "bestpred is NULL". *)
Definition l5 : list (list (nat * Z)) := [[(2%nat,1)]; []; []; [(4%nat,1)]; []].
Theorem C20_no_time_refuted : exists p, reach true true 5 (mkWorld (tbl l5) (env_of 5 l5 []) p) /\ aWrap p = false /\ good_params 5 q5 /\
  replan 20 (env_of 5 l5 []) (fun _ => false) p q5 = Exn XBestPred.
Proof.
  assert (okE 5 l5 [] = true) as He by done. assert (okC l5 [] true = true) as Hc by done. pose proof (okE_good _ _ _ He) as Hge.
  assert (forall go, sees true true (tbl l5) (env_of 5 l5 []) go) as Hse.
  { intros go. apply okC_sees; [done|]. intros _ s _. by destruct s. }
  set (e := env_of 5 l5 []) in *.
  assert (good_params 5 q5) as Hq by (unfold good_params; cbn; lra).
  set (acts := [ASetStart 0%nat; ASetGoal 2%nat; AReplan q5 yes; ASetStart 3%nat; ASetGoal 4%nat; AReplan q5 yes; ASetGoal 2%nat]).
  assert (exists rs p, play e 20 acts (new_ara true) = Ok (rs, p) /\ aWrap p = false /\ replan 20 e (fun _ => false) p q5 = Exn XBestPred) as (rs&p&Ep&Hw&Hex).
  { assert (match play e 20 acts (new_ara true) with Ok (rs, p) => aWrap p = false /\ replan 20 e (fun _ => false) p q5 = Exn XBestPred | _ => False end) as Hx by (vm_compute; done).
    destruct (play e 20 acts (new_ara true)) as [[rs p]| | |]; try done. exists rs, p. tauto. }
  refine (ex_intro _ p (conj _ (conj Hw (conj Hq Hex)))).
  refine (play_reach 20 e acts (tbl l5) Hge Hse _ _ _ _ _ Ep).
  - clear - Hq. repeat constructor; done.
  - clear - Hge Hse. by apply reach_new.
Qed.
Print Assumptions C20_no_time_refuted.

(** C24: without the condition on the last slot the bound is wrong: 100/95 is reported, but the solution costs 100 and the optimum 51. *)
Definition l4 : list (list (nat * Z)) := [[(1%nat,100);(2%nat,90);(3%nat,1)];[];[];[(1%nat,50)]].
Definition h4 : list Z := [51;0;5;50].
Definition q3 := mkParams 3 1 1 true.
Theorem C24_last_slot_refuted : exists p path p' b, reach true true 5 (mkWorld (tbl l4) (env_of 4 l4 h4) p) /\ good_params 5 q3 /\
  replan 20 (env_of 4 l4 h4) yes p q3 = Ok (true, path, 100, p') /\ aWrap p' = false /\ compute_suboptimality p' = Ok (Some b) /\
  user_start p = Some 0%nat /\ user_goal p = Some 1%nat /\ route (fun x => x) (gedge true (tbl l4)) [0;3;1]%nat 0%nat 1%nat 51 /\ (b * inject_Z 51 < inject_Z 100)%Q.
Proof.
  destruct (go_seen 4 l4 h4 true 0 1 yes q3 (true, [0;1]%nat, 100, 3%Q, false)) as (p&p'&?&?&?&?&Er&?&?&Ep); [by vm_compute|by vm_compute|lia|lia|done|by vm_compute|].
  exists p, [0;1]%nat, p', (100#95)%Q. split_and!; try done; try (unfold good_params; cbn; lra).
  - assert ((do r <- go (env_of 4 l4 h4) 0 1 yes q3; compute_suboptimality r.2) = Ok (Some (100#95)%Q)) as Hx by (vm_compute; done).
    unfold go in Hx. rewrite Ep in Hx. cbn [obind] in Hx. rewrite Er in Hx. exact Hx.
  - change 51 with (1 + (50 + 0)). repeat (apply (route_cons (fun x => x)); [cbn; repeat (first [left|right])|]). apply route_one.
Qed.
Print Assumptions C24_last_slot_refuted.

(** Non-vacuity of C24_valid_bound: another order of the successors; the bound 100/51 is below the solution eps 3. *)
Definition l4b : list (list (nat * Z)) := [[(3%nat,1);(2%nat,90);(1%nat,100)];[];[];[(1%nat,50)]].
Example C24_met : exists p path p' b, reach true true 5 (mkWorld (tbl l4b) (env_of 4 l4b h4) p) /\ good_params 5 q3 /\
  replan 20 (env_of 4 l4b h4) yes p q3 = Ok (true, path, 100, p') /\ aWrap p' = false /\ compute_suboptimality p' = Ok (Some b) /\
  last_slot_dominated p' /\ (b < get_solution_eps p')%Q.
Proof.
  destruct (go_seen 4 l4b h4 true 0 1 yes q3 (true, [0;1]%nat, 100, 3%Q, false)) as (p&p'&?&?&?&?&Er&Hs&?&Ep); [by vm_compute|by vm_compute|lia|lia|done|by vm_compute|].
  assert ((do r <- go (env_of 4 l4b h4) 0 1 yes q3; Ok (compute_suboptimality r.2, cur (cOpen (aC r.2)), fst <$> arr (cOpen (aC r.2)) !! 2%nat, fst <$> arr (cOpen (aC r.2)) !! 3%nat,
     (fun a => sG a + sH a) <$> cSt (aC r.2) !! 2%nat, (fun a => sG a + sH a) <$> cSt (aC r.2) !! 3%nat)) =
     Ok (Ok (Some (100#51)%Q), 3%nat, Some 3%nat, Some 2%nat, Some 95, Some 51)) as Hx by (vm_compute; done).
  unfold go in Hx. rewrite Ep in Hx. cbn [obind] in Hx. rewrite Er in Hx. cbn [obind snd] in Hx. injection Hx as Hb Hcur Hz2 Hz3 Hg2 Hg3.
  exists p, [0;1]%nat, p', (100#51)%Q. split_and!; try done; try (unfold good_params; cbn; lra).
  - intros u k v _. rewrite Hcur. intros Hu (a&Ha&->). rewrite Hu in Hz3. injection Hz3 as ->. rewrite Ha in Hg2. cbn in Hg2. injection Hg2 as Hg2.
    destruct (cSt (aC p') !! 3%nat) as [a3|] eqn:E3; [|done]. cbn in Hg3. injection Hg3 as Hg3. destruct (arr (cOpen (aC p')) !! 2%nat) as [[u2 k2]|] eqn:E2; [|done]. cbn in Hz2. injection Hz2 as ->.
    exists 3%nat, 51. split_and!; [by exists a3|lia|]. right. exists 2%nat, k2. split; [lia|done].
  - rewrite Hs. cbn. lra.
Qed.

(** C25 refuted without a bound on the number of calls: callnumber is 16 bits wide. After 65536 calls the data of the first call
    are taken for data of the current one: cost 1 is reported for an edge that by now costs 10. *)
Definition l5' : list (list (nat * Z)) := [[(2%nat,10)]; []; []; [(4%nat,1)]; []].
Definition qf := mkParams 5 1 1 true.
Definition first_acts : list act := [ASetStart 0%nat; ASetGoal 2%nat; AReplan qf yes; ASetStart 3%nat; ASetGoal 4%nat].
Definition batch : list act := concat (replicate 255 [AScratch; AReplan qf yes]).
Definition last_act : list act := [ASetStart 0%nat; ASetGoal 2%nat].
(** 1 + 257 * 255 = 65536 calls of replan, then one more. *)
Fixpoint batches (n : nat) (p : ara) : option ara :=
  match n with
  | O => Some p
  | S n => match play (env_of 5 l5 []) 20 batch p with Ok (_, p) => batches n p | _ => None end
  end.
Definition wrapped : option (bool * list nat * Z * option nat * option nat * bool) :=
  match play (env_of 5 l5 []) 20 first_acts (new_ara true) with
  | Ok (_, p0) =>
    match batches 257 p0 with
    | Some p1 =>
      match play (env_of 5 l5' []) 20 last_act (costs_changed p1) with
      | Ok (_, p) =>
        match replan 20 (env_of 5 l5' []) yes p qf with
        | Ok (b, l, c, _) => Some (b, l, c, user_start p, user_goal p, aWrap p)
        | _ => None end
      | _ => None end
    | _ => None end
  | _ => None end.
Lemma wrapped_val : wrapped = Some (true, [0;2]%nat, 1, Some 0%nat, Some 2%nat, true).
Proof. vm_compute. reflexivity. Qed.
Lemma batches_reach n p p' : good_env true 5 (tbl l5) (env_of 5 l5 []) -> (forall go, sees true true (tbl l5) (env_of 5 l5 []) go) ->
  Forall (fun a => match a with AReplan q _ => good_params 5 q | _ => True end) batch ->
  reach true true 5 (mkWorld (tbl l5) (env_of 5 l5 []) p) -> batches n p = Some p' -> reach true true 5 (mkWorld (tbl l5) (env_of 5 l5 []) p').
Proof.
  intros Hge Hse Hb. revert p. induction n as [|n IH]; intros p HR HE; cbn [batches] in HE; [injection HE as <-; exact HR|].
  destruct (play (env_of 5 l5 []) 20 batch p) as [[rs p1]| | |] eqn:E1; try discriminate HE.
  eapply IH; [|exact HE]. exact (play_reach 20 _ batch (tbl l5) Hge Hse _ _ _ Hb HR E1).
Qed.
Theorem C25_many_calls_refuted : exists p path p', reach true true 5 (mkWorld (tbl l5') (env_of 5 l5' []) p) /\ good_params 5 qf /\
  user_start p = Some 0%nat /\ user_goal p = Some 2%nat /\ replan 20 (env_of 5 l5' []) yes p qf = Ok (true, path, 1, p') /\
  (forall l C, route (fun x => x) (gedge true (tbl l5')) l 0%nat 2%nat C -> 10 <= C).
Proof.
  assert (good_params 5 qf) as Hq by (unfold good_params; cbn; lra).
  assert (forall go, sees true true (tbl l5) (env_of 5 l5 []) go) as Hse.
  { intros go. apply okC_sees; [done|]. intros _ s _. by destruct s. }
  assert (forall go, sees true true (tbl l5') (env_of 5 l5' []) go) as Hse'.
  { intros go. apply okC_sees; [done|]. intros _ s _. by destruct s. }
  assert (good_env true 5 (tbl l5) (env_of 5 l5 [])) as Hge by (apply okE_good; done).
  assert (good_env true 5 (tbl l5') (env_of 5 l5' [])) as Hge' by (apply okE_good; done).
  assert (reach true true 5 (mkWorld (tbl l5) (env_of 5 l5 []) (new_ara true))) as HR0 by (apply reach_new; [done|done|]; split; [lra|by vm_compute]).
  assert (Forall (fun a => match a with AReplan q _ => good_params 5 q | _ => True end) batch) as Hm.
  { unfold batch. generalize 255%nat. clear - Hq. induction n as [|n IH]; [constructor|].
    cbn [replicate concat]. apply Forall_app. split; [(repeat (apply Forall_cons; split; [first [exact I|exact Hq]|])); apply Forall_nil_2|exact IH]. }
  pose proof wrapped_val as Hv. unfold wrapped in Hv.
  destruct (play (env_of 5 l5 []) 20 first_acts (new_ara true)) as [[rs1 p0]| | |] eqn:E1; try discriminate Hv.
  assert (reach true true 5 (mkWorld (tbl l5) (env_of 5 l5 []) p0)) as HR00.
  { refine (play_reach 20 _ first_acts (tbl l5) Hge Hse _ _ _ _ HR0 E1). (repeat (apply Forall_cons; split; [first [exact I|exact Hq]|])); apply Forall_nil_2. }
  clear E1. destruct (batches 257 p0) as [p1|] eqn:E1; [|discriminate Hv].
  pose proof (batches_reach _ _ _ Hge Hse Hm HR00 E1) as HR1. clear E1.
  assert (reach true true 5 (mkWorld (tbl l5') (env_of 5 l5' []) (costs_changed p1))) as HR2.
  { eapply reach_costs; [exact HR1|exact Hge'|apply le_n|apply Hse']. }
  destruct (play (env_of 5 l5' []) 20 last_act (costs_changed p1)) as [[rs2 p]| | |] eqn:E2; try discriminate Hv.
  assert (reach true true 5 (mkWorld (tbl l5') (env_of 5 l5' []) p)) as HR3.
  { refine (play_reach 20 _ last_act (tbl l5') Hge' Hse' _ _ _ _ HR2 E2). repeat constructor. }
  destruct (replan 20 (env_of 5 l5' []) yes p qf) as [[[[b l] c] p']| | |] eqn:E3; try discriminate Hv.
  injection Hv as -> -> -> Hs Hg _. exists p, [0;2]%nat, p'. refine (conj HR3 (conj Hq (conj Hs (conj Hg (conj E3 _))))).
  clear. assert (forall l a z C, route (fun x => x) (gedge true (tbl l5')) l a z C -> 0 <= C) as Hpos.
  { induction 1 as [|a b l z c C Hin _ IH]; [lia|]. apply (ge_edge true 5 _ _ (okE_good 5 l5' [] eq_refl)) in Hin. lia. }
  intros l C Hro. remember 2%nat as z0 eqn:Hz in Hro. remember 0%nat as a0 eqn:Ha in Hro. destruct Hro as [a|a b l z c C Hin Hro]; [congruence|]. subst a z.
  cbn in Hin. apply elem_of_list_singleton in Hin. injection Hin as -> ->. apply Hpos in Hro. lia.
Qed.
Print Assumptions C25_many_calls_refuted.
(** Non-vacuity of C25_history_total and C36: two replans on the six-state world. *)
Example C25_met : exists acts, Forall (good_act 5 (env_of 6 l6 h6) 5) acts /\ Z.of_nat (replans acts * 20) < 65536 /\ replans acts = 2%nat /\
  play (env_of 6 l6 h6) 20 (ASetStart 0%nat :: ASetGoal 5%nat :: acts) (new_ara true) ≠ OOF /\
  (do r <- play (env_of 6 l6 h6) 20 (ASetStart 0%nat :: ASetGoal 5%nat :: acts) (new_ara true); Ok r.1) = Ok [(true, [0;1;2;4;5]%nat, 15); (true, [0;1;2;3;4;5]%nat, 13)].
Proof.
  exists [AReplan (mkParams (11#10) (11#10) 1 true) yes; AReplan (mkParams (11#10) 1 1 false) yes].
  split; [|split; [by vm_compute|split; [done|split; [by vm_compute|by vm_compute]]]].
  repeat constructor; cbn; unfold good_params; cbn; try lra; unfold yes; discriminate.
Qed.
