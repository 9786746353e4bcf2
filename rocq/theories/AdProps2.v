(** C51-C55: concrete worlds: non-vacuity, and refutations of stronger claims. *)
From Coq Require Import ZifyBool ZifyNat QArith Qround Lqa.
From Verif Require Import Base KeyModel HeapModel ListModel AraModel AraSpec AraProofs AraProofs4 AraProps2 AdModel AdSpec AdProofs7 AdProofs9 AdProps.
Local Open Scope Z_scope.

(** Forward search on a table with its reversal; [ab] is the state without successors, if any. *)
Definition rtbl (l : list (list (nat * Z))) (t : nat) : list (nat * Z) :=
  flat_map (fun p => map (fun tc => (p, tc.2)) (List.filter (fun tc : nat * Z => (tc.1 =? t)%nat) (tbl l p))) (seq 0 (length l)).
Definition denv (n : nat) (l : list (list (nat * Z))) (h : list Z) (ab : option nat) : aenv :=
  mkEnv n (fun s => if bool_decide (ab = Some s) then [] else tbl l s) (rtbl l) (fun s => nth s h 0) (fun _ => 0).
Lemma rtbl_in l t p w : (p, w) ∈ rtbl l t <-> (t, w) ∈ tbl l p.
Proof.
  unfold rtbl. rewrite elem_of_list_In, in_flat_map. split.
  - intros (q&Hq&Hin). apply in_map_iff in Hin as ([u v]&[= -> <-]&Hin). apply filter_In in Hin as [Hin He]. cbn in He. apply Nat.eqb_eq in He as ->.
    by apply elem_of_list_In.
  - intros Hin. exists p. destruct (tbl_in _ _ _ Hin) as (x&_&_&Hs). split; [apply in_seq; lia|].
    apply in_map_iff. exists (t, w). split; [done|]. apply filter_In. split; [by apply elem_of_list_In|]. cbn. apply Nat.eqb_refl.
Qed.
Definition okD (n : nat) (l : list (list (nat * Z))) (h : list Z) : bool :=
  (n <? 1000)%nat && (length l <=? n)%nat && forallb (fun x => forallb (fun tc => (tc.1 <? n)%nat && (0 <? tc.2) && (tc.2 <=? INFINITECOST)) x) l &&
  forallb (fun x => (0 <=? x) && (10 * x <? 2147483648)) h && okC l h true.
Lemma okD_good n l h ab : okD n l h = true -> good_env true 10 (tbl l) (denv n l h ab).
Proof.
  unfold okD. rewrite !andb_true_iff, !forallb_forall. intros ((((Hn&Hlen)&Hl)&Hh)&_).
  assert (forall s, 0 <= nth s h 0 /\ 10 * nth s h 0 < 2147483648) as Hx.
  { intros s. destruct (decide (s < length h)%nat); [|rewrite nth_overflow by lia; lia]. specialize (Hh (nth s h 0) ltac:(by apply nth_In)). lia. }
  split; cbn.
  - lia.
  - intros s t c Hin. destruct (tbl_in _ _ _ Hin) as (x&H1&H2&_). apply elem_of_list_In in H1, H2. specialize (Hl x H1). rewrite forallb_forall in Hl. specialize (Hl _ H2). cbn [fst snd] in Hl. lia.
  - intros s. apply Hx.
  - intros s. specialize (Hx s). change 10%Q with (inject_Z 10). rewrite <- inject_Z_mult. rewrite <- Zlt_Qlt. lia.
Qed.
Lemma okD_sees n l h abs ab st go : okD n l h = true -> (forall s, go = Some s -> nth s h 0 = 0) -> (forall s, ab = Some s -> abs = true /\ go = Some s) ->
  dsees true abs (tbl l) (denv n l h ab) st go.
Proof.
  unfold okD. rewrite !andb_true_iff. intros (((Hn&_)&_)&Hc) Hz Hab. split; cbn.
  - intros s Hs. rewrite bool_decide_eq_false_2; [done|]. intros ->. destruct (Hab s eq_refl) as [Ha Hg]. by apply (Hs Ha).
  - intros r _ t p w _. apply rtbl_in.
  - intros s t w Hin. destruct (tbl_in _ _ _ Hin) as (x&_&_&Hs). lia.
  - done.
  - intros s t c Hin. unfold okC in Hc. cbn in Hc. rewrite forallb_forall in Hc.
    destruct (tbl_in _ _ _ Hin) as (x&_&_&Hs). specialize (Hc s). rewrite in_seq in Hc. specialize (Hc ltac:(lia)). rewrite forallb_forall in Hc.
    apply elem_of_list_In in Hin. specialize (Hc _ Hin). cbn in Hc. lia.
Qed.

(** Round 1: set_start, set_goal, replan. Round 2: a change of the environment, then replan. *)
Definition q101 := mkParams 10 1 3 false.
Definition round1 (n : nat) l h (ab : option nat) (s g : nat) : dres (ara * (bool * list nat * Z * ara)) :=
  do p <- ad_set_start (denv n l h None) (new_ad true) s;
  do p <- ad_set_goal (denv n l h ab) p g;
  do r <- ad_replan 20 (denv n l h ab) yes p q101; Ok (p, r).
Definition dseen (r : dres (bool * list nat * Z * ara)) : option (bool * list nat * Z * Q * bool * Z * bool) :=
  match r with Ok (b, l, c, p) => Some (b, l, c, Qred (aSat p), aWrap p, aIter p, aReinit p) | _ => None end.
Lemma dseen_ok r b l c sat wr it ri : dseen r = Some (b, l, c, sat, wr, it, ri) ->
  exists p, r = Ok (b, l, c, p) /\ (ad_solution_eps p == sat)%Q /\ aWrap p = wr /\ aIter p = it /\ aReinit p = ri.
Proof. unfold dseen. destruct r as [[[[b' l'] c'] p]| | |]; try done. intros [= <- <- <- <- <- <- <-]. exists p. split_and!; try done. symmetry. apply Qred_correct. Qed.
Lemma round1_reach n l h abs (ab : option nat) s g r : okD n l h = true -> nth g h 0 = 0 -> (forall x, ab = Some x -> abs = true /\ x = g) ->
  dseen (do r <- round1 n l h ab s g; Ok r.2) = Some r ->
  exists p p', dreach true abs 10 (mkWorld (tbl l) (denv n l h ab) p) /\ dreach true abs 10 (mkWorld (tbl l) (denv n l h ab) p') /\
    user_start p = Some s /\ user_goal p = Some g /\ aStart p' = Some s /\ aGoal p' = Some g /\
    round1 n l h ab s g = Ok (p, (r.1.1.1.1, p')) /\
    ad_replan 20 (denv n l h ab) yes p q101 = Ok (r.1.1.1.1, p') /\ (ad_solution_eps p' == r.1.1.1.2)%Q /\ aWrap p' = r.1.1.2 /\ aIter p' = r.1.2 /\ aReinit p' = r.2.
Proof.
  intros HD Hz Hab Hs. destruct r as [[[[[[b l'] c] sat] wr] it] ri]. apply dseen_ok in Hs as (p'&HE&Hsat&Hw&Hi&Hr).
  apply obind_ok in HE as ([p [[[b2 l2] c2] p2]]&E0&[= -> -> -> ->]). pose proof E0 as E0'. unfold round1 in E0'.
  apply obind_ok in E0' as (p1&E1&E0'). apply obind_ok in E0' as (p2&E2&E0'). apply obind_ok in E0' as (r&E3&[= -> ->]). cbn [fst snd] in *.
  destruct (dset_start_rest _ _ _ _ E1) as (F1&_). destruct (dset_goal_rest _ _ _ _ E2) as (F2&_). cbn in F1.
  assert (aStart p1 = Some s /\ aGoal p1 = None) as [S1 G1].
  { unfold ad_set_start in E1. cbn [new_ad ad_blank aFwd] in E1. unfold ad_SetSearchStartState in E1. apply obind_ok in E1 as (x&_&E1).
    wcbn. rewrite bool_decide_eq_false_2 in E1 by done. injection E1 as <-. wcbn. done. }
  assert (aStart p = Some s /\ aGoal p = Some g) as [S2 G2].
  { unfold ad_set_goal in E2. rewrite F1 in E2. unfold ad_SetSearchGoalState in E2. rewrite bool_decide_eq_false_2 in E2 by (by rewrite G1).
    apply obind_ok in E2 as (x&_&E2). injection E2 as <-. wcbn. done. }
  assert (dreach true abs 10 (mkWorld (tbl l) (denv n l h ab) p)) as HR.
  { eapply (dr_goal _ _ _ _ (denv n l h None)); [eapply (dr_start _ _ _ _ (denv n l h None)); [apply dr_new|..]|..].
    - by apply okD_good.
    - by apply okD_sees.
    - split; unfold inject_Z; cbn; [lra|]. unfold Qlt, INFINITECOST. cbn. lia.
    - by apply okD_good.
    - done.
    - exact E1.
    - rewrite S1, G1. by apply okD_sees.
    - by right.
    - intros _. right. done.
    - by apply okD_good.
    - done.
    - exact E2.
    - rewrite S2, G2. apply okD_sees; [done|intros x [= <-]; done|]. intros x Hx. destruct (Hab x Hx) as [? ->]. done.
    - left. by rewrite G1, G2.
    - intros _. right. destruct (dset_start_rest _ _ _ _ E1) as (_&_&_&_&_). unfold ad_set_start in E1. cbn [new_ad ad_blank aFwd] in E1.
      unfold ad_SetSearchStartState in E1. apply obind_ok in E1 as (x&_&E1). wcbn. rewrite bool_decide_eq_false_2 in E1 by done. injection E1 as <-. wcbn. done. }
  exists p, p'. destruct (Search_rest _ _ _ _ _ _ E3) as (Hg'&Hs'&_). cbn in Hg', Hs'.
  split; [done|]. split.
  { eapply (dr_replan _ _ _ _ _ (set_params p q101)); [|exact E3]. apply dr_params; [done|]. unfold good_params1. cbn. lra. }
  unfold user_start, user_goal. rewrite F2, F1. split_and!; try done; congruence.
Qed.

Definition round2 (n : nat) l h (ab : option nat) (s g : nat) l' h' (cl : list nat) : dres (ara * (bool * list nat * Z * ara)) :=
  do r <- round1 n l h ab s g;
  do p <- ad_costs_changed (denv n l' h' ab) r.2.2 cl;
  do r <- ad_replan 20 (denv n l' h' ab) yes p q101; Ok (p, r).
Definition reinits (r : dres (ara * (bool * list nat * Z * ara))) : option (bool * option nat * option nat * bool) :=
  match r with Ok (p, _) => Some (aReinit p, aStart p, aGoal p, aFwd p) | _ => None end.
Lemma round2_reach n l h abs (ab : option nat) s g r1 l' h' cl r : okD n l h = true -> okD n l' h' = true -> nth g h 0 = 0 -> nth g h' 0 = 0 -> (forall x, ab = Some x -> abs = true /\ x = g) ->
  dseen (do r <- round1 n l h ab s g; Ok r.2) = Some r1 -> r1.1.1.2 = false ->
  dseen (do r <- round2 n l h ab s g l' h' cl; Ok r.2) = Some r -> reinits (round2 n l h ab s g l' h' cl) = Some (false, Some s, Some g, true) ->
  exists p p1 p2, dreach true abs 10 (mkWorld (tbl l) (denv n l h ab) p) /\ aWrap p = false /\ aIter p = r1.1.2 /\
    good_env true 10 (tbl l') (denv n l' h' ab) /\ dsees true abs (tbl l') (denv n l' h' ab) (aStart p) (aGoal p) /\
    ad_costs_changed (denv n l' h' ab) p cl = Ok p1 /\ aReinit p1 = false /\
    aStart p1 = Some s /\ aGoal p1 = Some g /\ aFwd p1 = true /\ user_start p1 = Some s /\ user_goal p1 = Some g /\
    ad_replan 20 (denv n l' h' ab) yes p1 q101 = Ok (r.1.1.1.1, p2) /\ (ad_solution_eps p2 == r.1.1.1.2)%Q /\ aWrap p2 = r.1.1.2.
Proof.
  intros HD HD' Hz Hz' Hab Hs1 Hw1 Hs2 Hri. destruct (round1_reach n l h abs ab s g r1 HD Hz Hab Hs1) as (p0&p&_&HR&_&_&Sp&Gp&ER1&ER&_&Hwp&Hip&_).
  destruct r as [[[[[[b path] c] sat] wr] it] ri]. apply dseen_ok in Hs2 as (p'&HE&Hsat&Hw&_).
  apply obind_ok in HE as ([p1 [[[b2 l2] c2] p2]]&E0&[= -> -> -> ->]). rewrite E0 in Hri. cbn in Hri. injection Hri as Hri S1 G1 W1. unfold round2 in E0. rewrite ER1 in E0. cbn [obind fst snd] in E0.
  apply obind_ok in E0 as (p1'&E1&E0). apply obind_ok in E0 as (r'&E2&[= -> ->]). cbn [fst snd] in *.
  exists p, p1, p'. split; [done|]. split; [congruence|]. split; [done|]. split; [by apply okD_good|]. split.
  { rewrite Sp, Gp. apply okD_sees; [done|intros x [= <-]; done|]. intros x Hx. destruct (Hab x Hx) as [? ->]. done. }
  split_and!; try done; unfold user_start, user_goal; by rewrite W1.
Qed.

(** Ten states. First round: 0 1 2 9 with cost 3; then the edge 1 -> 2 costs 50, and the repaired path costs 52. *)
Definition d1 : list (list (nat * Z)) := [[(1%nat,1);(3%nat,2)];[(2%nat,1)];[(9%nat,1)];[(9%nat,100)]].
Definition d2 : list (list (nat * Z)) := [[(1%nat,1);(3%nat,2)];[(2%nat,50)];[(9%nat,1)];[(9%nat,100)]].
Definition dh : list Z := [3;2;1;50].
Definition o9 := Some 9%nat.
Lemma d_repairable p : repairable (tbl d1) (tbl d2) p [2%nat].
Proof.
  split.
  - intros s t w Ht. rewrite elem_of_list_singleton in Ht. unfold d1, d2, tbl. destruct s as [|[|[|[|s]]]]; cbn [nth]; try done.
    rewrite !elem_of_list_singleton. split; intros [= -> _]; done.
  - intros s t w. unfold d1, d2, tbl. destruct s as [|[|[|[|s]]]]; cbn [nth]; intros Hin; left; try (by exists w); try (destruct s; by apply elem_of_nil in Hin).
    apply elem_of_list_singleton in Hin. injection Hin as -> ->. exists 1. by apply elem_of_list_singleton.
Qed.
Example hypotheses_met_repair : exists p p1 p2, dreach true true 10 (mkWorld (tbl d1) (denv 10 d1 dh o9) p) /\
  ad_costs_changed (denv 10 d2 dh o9) p [2%nat] = Ok p1 /\ aReinit p1 = false /\
  dreach true true 10 (mkWorld (tbl d2) (denv 10 d2 dh o9) p1) /\ good_params1 10 q101 /\ user_start p1 = Some 0%nat /\ user_goal p1 = Some 9%nat /\
  ad_replan 20 (denv 10 d2 dh o9) yes p1 q101 = Ok (true, [0;1;2;9]%nat, 52, p2) /\ (ad_solution_eps p2 == 1)%Q /\ aWrap p2 = false.
Proof.
  destruct (round2_reach 10 d1 dh true o9 0 9 (true, [0;1;2;9]%nat, 3, 1%Q, false, 4, false) d2 dh [2%nat] (true, [0;1;2;9]%nat, 52, 1%Q, false, 8, false))
    as (p&p1&p2&HR&Hw&_&Hge&Hse&EC&Hri&_&_&_&Hs&Hg&ER&Hsat&Hw2);
    [by vm_compute|by vm_compute|done|done|by intros x [= <-]|by vm_compute|done|by vm_compute|by vm_compute|].
  exists p, p1, p2. split_and!; try done; try (cbn; lra).
  apply (dr_costs _ _ _ (tbl d1) (denv 10 d1 dh o9) _ _ p [2%nat]); try done.
  - constructor; [cbn; lia|constructor].
  - right. right. split; [apply d_repairable|]. by left.
Qed.
(** In that repair, the first call of ComputePath expands state 2 twice (first underconsistent, then again): C54 is tight. *)
Example C54_tight : (do r <- round1 10 d1 dh o9 0 9; do p <- ad_costs_changed (denv 10 d2 dh o9) r.2.2 [2%nat];
  do p <- ad_rebuild (ad_eps_step (ad_first_iter p) (aFirst p)); do p <- ad_reprio p; do c <- dlift DBadState (refresh (denv 10 d2 dh o9) true (aCall p) true (aC p) 9);
  do r <- ad_log (denv 10 d2 dh o9) true 22 yes (aEps p) (aIter p) (aCall p) 9 c 1 []; Ok r.2) = Ok [2%nat; 2%nat].
Proof. by vm_compute. Qed.

(** C55 for changes that are not repairable is refuted: an edge that appears and leads to a state the search has never seen is ignored, although
    that state is in the list given to costs_changed.  Before, no path; then the edge 1 -> 2 appears; replan still finds nothing. *)
Definition n1 : list (list (nat * Z)) := [[(1%nat,1)];[];[(9%nat,1)]].
Definition n2 : list (list (nat * Z)) := [[(1%nat,1)];[(2%nat,1)];[(9%nat,1)]].
Theorem C55_new_edge_refuted : exists p p1 p2, dreach true true 10 (mkWorld (tbl n1) (denv 10 n1 [] o9) p) /\ aWrap p = false /\ good_params1 10 q101 /\
  good_env true 10 (tbl n2) (denv 10 n2 [] o9) /\ dsees true true (tbl n2) (denv 10 n2 [] o9) (aStart p) (aGoal p) /\
  (forall s t w, t ∉ [2%nat] -> (t, w) ∈ tbl n2 s <-> (t, w) ∈ tbl n1 s) /\
  ad_costs_changed (denv 10 n2 [] o9) p [2%nat] = Ok p1 /\ user_start p1 = Some 0%nat /\ user_goal p1 = Some 9%nat /\
  ad_replan 20 (denv 10 n2 [] o9) yes p1 q101 = Ok (false, [], INFINITECOST, p2) /\ aWrap p2 = false /\
  route (inflate 10) (gedge true (tbl n2)) [0;1;2;9]%nat 0%nat 9%nat 30.
Proof.
  destruct (round2_reach 10 n1 [] true o9 0 9 (false, [], INFINITECOST, inject_Z INFINITECOST, false, 1, false) n2 [] [2%nat] (false, [], INFINITECOST, inject_Z INFINITECOST, false, 2, false))
    as (p&p1&p2&HR&Hw&_&Hge&Hse&EC&Hri&_&_&_&Hs&Hg&ER&Hsat&Hw2);
    [by vm_compute|by vm_compute|done|done|by intros x [= <-]|by vm_compute|done|by vm_compute|by vm_compute|].
  exists p, p1, p2. split_and!; try done; try (cbn; lra).
  - intros s t w Ht. rewrite elem_of_list_singleton in Ht. unfold n1, n2, tbl. destruct s as [|[|[|s]]]; cbn [nth]; try done.
    rewrite elem_of_list_singleton, elem_of_nil. split; [intros [= -> _]|]; done.
  - change 30 with (inflate 10 1 + (inflate 10 1 + (inflate 10 1 + 0))). repeat (apply route_cons; [cbn; repeat (first [left|right])|]). apply route_one.
Qed.
Print Assumptions C55_new_edge_refuted.

(** C52 if costs and heuristic change together is refuted: if none of the listed states is known to the search, the reported eps is
    kept although the search has not looked at the new costs: eps 1 reported, cost 5, but a path of cost 3 exists (all its edges existed before). *)
Definition x1 : list (list (nat * Z)) := [[(1%nat,1);(9%nat,5)];[(2%nat,10)];[(9%nat,1)]].
Definition x2 : list (list (nat * Z)) := [[(1%nat,1);(9%nat,5)];[(2%nat,1)];[(9%nat,1)]].
Definition xh1 : list Z := [5;11;1].
Definition xh2 : list Z := [3;2;1].
Theorem C52_new_heuristic_refuted : exists p p1 p2, dreach true true 10 (mkWorld (tbl x1) (denv 10 x1 xh1 o9) p) /\ aWrap p = false /\ good_params1 10 q101 /\
  good_env true 10 (tbl x2) (denv 10 x2 xh2 o9) /\ dsees true true (tbl x2) (denv 10 x2 xh2 o9) (aStart p) (aGoal p) /\
  repairable (tbl x1) (tbl x2) p [2%nat] /\
  ad_costs_changed (denv 10 x2 xh2 o9) p [2%nat] = Ok p1 /\ user_start p1 = Some 0%nat /\ user_goal p1 = Some 9%nat /\
  ad_replan 20 (denv 10 x2 xh2 o9) yes p1 q101 = Ok (true, [0;9]%nat, 5, p2) /\ aWrap p2 = false /\ (ad_solution_eps p2 == 1)%Q /\
  route (fun x => x) (gedge true (tbl x2)) [0;1;2;9]%nat 0%nat 9%nat 3.
Proof.
  destruct (round2_reach 10 x1 xh1 true o9 0 9 (true, [0;9]%nat, 5, 1%Q, false, 4, false) x2 xh2 [2%nat] (true, [0;9]%nat, 5, 1%Q, false, 5, false))
    as (p&p1&p2&HR&Hw&_&Hge&Hse&EC&Hri&_&_&_&Hs&Hg&ER&Hsat&Hw2);
    [by vm_compute|by vm_compute|done|done|by intros x [= <-]|by vm_compute|done|by vm_compute|by vm_compute|].
  exists p, p1, p2. split_and!; try done; try (cbn; lra).
  - split.
    + intros s t w Ht. rewrite elem_of_list_singleton in Ht. unfold x1, x2, tbl. destruct s as [|[|[|s]]]; cbn [nth]; try done.
      rewrite !elem_of_list_singleton. split; intros [= -> _]; done.
    + intros s t w. unfold x1, x2, tbl. destruct s as [|[|[|s]]]; cbn [nth]; intros Hin; left; try (by exists w); try (destruct s; by apply elem_of_nil in Hin).
      apply elem_of_list_singleton in Hin. injection Hin as -> ->. exists 10. by apply elem_of_list_singleton.
  - change 3 with (1 + (1 + (1 + 0))). repeat (apply (route_cons (fun x => x)); [cbn; repeat (first [left|right])|]). apply route_one.
Qed.
Print Assumptions C52_new_heuristic_refuted.

(** C53 is refuted for a goal that is moved without planning from scratch, if the environment gives the goal no successors (as
    SBPL environments do): the cost of the edge into the new goal rises, the repair cannot reach the states behind the goal, and replan throws
    "g-values are non-decreasing". *)
Definition g1 : list (list (nat * Z)) := [[(1%nat,1)];[(2%nat,1)];[(1%nat,1);(9%nat,1)]].
Definition g2 : list (list (nat * Z)) := [[(1%nat,100)];[(2%nat,1)];[(1%nat,1);(9%nat,1)]].
Definition o1 := Some 1%nat.
Theorem C53_moved_goal_throws_refuted : exists p p1 r p2 p3, dreach true true 10 (mkWorld (tbl g1) (denv 10 g1 [] o9) p) /\ aWrap p = false /\ good_params1 10 q101 /\
  dsees true true (tbl g1) (denv 10 g1 [] o1) (Some 0%nat) o1 /\ dsees true true (tbl g2) (denv 10 g2 [] o1) (Some 0%nat) o1 /\
  good_env true 10 (tbl g1) (denv 10 g1 [] o1) /\ good_env true 10 (tbl g2) (denv 10 g2 [] o1) /\
  ad_set_goal (denv 10 g1 [] o1) p 1 = Ok p1 /\ ad_replan 20 (denv 10 g1 [] o1) yes p1 q101 = Ok (true, r, 1, p2) /\ r = [0;1]%nat /\
  ad_costs_changed (denv 10 g2 [] o1) p2 [1%nat] = Ok p3 /\
  ad_replan 20 (denv 10 g2 [] o1) yes p3 q101 = Exn DNonDecreasing.
Proof.
  destruct (round1_reach 10 g1 [] true o9 0 9 (true, [0;1;2;9]%nat, 3, 1%Q, false, 4, false)) as (p0&p&_&HR&_&_&Hs&Hg&ER&_&_&Hw&_);
    [by vm_compute|done|by intros x [= <-]|by vm_compute|].
  set (m := do p1 <- ad_set_goal (denv 10 g1 [] o1) p 1; do r <- ad_replan 20 (denv 10 g1 [] o1) yes p1 q101; 
     do p3 <- ad_costs_changed (denv 10 g2 [] o1) r.2 [1%nat]; Ok (p1, r, p3)).
  assert ((match m with Ok (_, r, p3) => Some (r.1, match ad_replan 20 (denv 10 g2 [] o1) yes p3 q101 with Exn x => Some x | _ => None end) | _ => None end) =
    Some (true, [0;1]%nat, 1, Some DNonDecreasing)) as HM.
  { assert (p = match round1 10 g1 [] o9 0 9 with Ok (_, (_, p)) => p | _ => new_ad true end) as Hp by (rewrite ER; reflexivity).
    unfold m. clear HR Hs Hg Hw ER m. rewrite Hp. vm_compute. reflexivity. }
  clear ER.
  destruct m as [[[p1 [rr p2]] p3]| | |] eqn:Em; try done. unfold m in Em.
  apply obind_ok in Em as (p1'&E1&Em). apply obind_ok in Em as (r'&E2&Em). apply obind_ok in Em as (p3'&E3&[= -> -> ->]).
  cbn [fst snd] in *. injection HM as -> HM.
  exists p, p1, [0;1]%nat, p2, p3. split_and!; try done; try (cbn; lra); try (by apply okD_good); try (apply okD_sees; [done|intros x [= <-]; done|intros x [= <-]; done]).
  destruct (ad_replan 20 (denv 10 g2 [] o1) yes p3 q101); try done. by injection HM as ->.
Qed.
Print Assumptions C53_moved_goal_throws_refuted.
