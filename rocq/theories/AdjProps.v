(** C45, C46: the adjacency list environment. *)
From Coq Require Import ZifyBool ZifyNat QArith Qround Lqa.
From Verif Require Import Base KeyModel HeapModel ListModel MdpModel AngleModel AngleProofs AraModel AraSpec AraProofs AraProofs2 AraPath AraProofs3 AraProofs4 AraProofs5 AraProofs6 AraProofs7 AraProofs8 AraProofs9 AraProps AraProps2 AraProps3 AdjModel AdjSpec AdjProofs.
Local Open Scope Z_scope.

(** C45: after any history of allowed calls, the environment is the undirected graph the calls describe. *)
Theorem C45_roadmap : forall (C : Type) `(Countable C) (dist : C -> C -> Z) (cs : list (call C)) (g : roadmap C), history cs g ->
  exists e, performs new_adj cs = Ok e /\
    SizeofCreatedEnv e = length (rPts g) /\ NoDup (rPts g) /\
    (forall c, hasPoint e c = true <-> c ∈ rPts g) /\
    (forall i a, rPts g !! i = Some a ->
      exists l acts, GetSuccs e i = Ok l /\ NoDup (l.*1) /\
        (forall j k, (j, k) ∈ l <-> rGoal g <> Some i /\ exists b, rPts g !! j = Some b /\ rCost g a b = Some k) /\
        SetAllActions e i = Ok acts /\ aOut <$> acts = (fun x => [(Z.of_nat x.1, x.2, 1)]) <$> l) /\
    (forall i j a b, rPts g !! i = Some a -> rPts g !! j = Some b -> GetFromToHeuristic dist e i j = Ok (dist a b)) /\
    (forall i a j b, rPts g !! i = Some a -> rGoal g = Some j -> rPts g !! j = Some b -> GetGoalHeuristic dist e i = Ok (dist a b)) /\
    (forall i a j b, rPts g !! i = Some a -> rStart g = Some j -> rPts g !! j = Some b -> GetStartHeuristic dist e i = Ok (dist b a)) /\
    (forall i, GetPreds e i = Exn tt).
Proof.
  intros C ? ? dist cs g Hh. destruct (history_spec cs g Hh) as (e&Ee&R). exists e.
  assert (forall i j a b, rPts g !! i = Some a -> rPts g !! j = Some b -> GetFromToHeuristic dist e i j = Ok (dist a b)) as HF.
  { intros i j a b Hi Hj. unfold GetFromToHeuristic. by rewrite (rp_pts _ _ R), Hi, Hj. }
  split_and!; try done.
  - unfold SizeofCreatedEnv. by rewrite (rp_pts _ _ R).
  - apply R.
  - intros c. unfold hasPoint. rewrite bool_decide_eq_true. unfold is_Some. rewrite elem_of_list_lookup. split; intros (i&Hi); exists i; by apply (rp_ids _ _ R).
  - intros i a Hi. destruct (rep_lookup _ _ _ _ R Hi) as (l&El). unfold GetSuccs, SetAllActions. rewrite (rp_goal _ _ R), El.
    case_bool_decide as Hg.
    + exists [], []. split_and!; try done; [constructor|]. intros j k. split; [by intros ?%elem_of_nil|tauto].
    + exists l. eexists. split_and!; try done; [by eapply (rp_keys _ _ R)| |].
      * intros j k. rewrite (rp_edge _ _ R i a l Hi El). tauto.
      * rewrite <- list_fmap_compose. by apply list_fmap_ext.
  - intros i a j b Hi Hg Hj. unfold GetGoalHeuristic. rewrite (rp_goal _ _ R), Hg. by apply HF.
  - intros i a j b Hi Hg Hj. unfold GetStartHeuristic. rewrite (rp_start _ _ R), Hg. by apply HF.
Qed.
Print Assumptions C45_roadmap.

(** A history that meets the hypotheses: a square 0-1-3, 0-2-3, a changed cost and a removed point. *)
Definition demo : list (call Z) := [Add 0; Add 1; Add 2; Add 3; Cost 0 1 5; Cost 1 3 5; Cost 0 2 1; Cost 2 3 2; Cost 2 3 7; Add 9; Cost 3 9 1; RemoveLast 1; Start 0; Goal 3].
Section steps.
Context {C : Type} `{Countable C} (cs : list (call C)) (P : list C) (f : C -> C -> option Z) (s t : option nat) (Hh : history cs (mkRoad P f s t)).
Lemma h_add c : c ∉ P -> history (cs ++ [Add c]) (mkRoad (P ++ [c]) f s t).
Proof. intros Hc. eapply hist_call; [exact Hh|]. by apply (does_add (mkRoad P f s t)). Qed.
Lemma h_cost a b k : a ∈ P -> b ∈ P -> a <> b -> history (cs ++ [Cost a b k]) (mkRoad P (fun x y => if decide ((x, y) = (a, b) \/ (x, y) = (b, a)) then Some k else f x y) s t).
Proof. intros Ha Hb Hab. eapply hist_call; [exact Hh|]. by apply (does_cost (mkRoad P f s t)). Qed.
Lemma h_remove n l : (n <= length P)%nat -> l = take (length P - n) P -> history (cs ++ [RemoveLast n]) (mkRoad l (fun x y => if decide (x ∈ l /\ y ∈ l) then f x y else None) s t).
Proof. intros Hn Hl. eapply hist_call; [exact Hh|]. by apply (does_remove (mkRoad P f s t)). Qed.
Lemma h_start c i : P !! i = Some c -> history (cs ++ [Start c]) (mkRoad P f (Some i) t).
Proof. intros Hi. eapply hist_call; [exact Hh|]. by apply (does_start (mkRoad P f s t)). Qed.
Lemma h_goal c i : P !! i = Some c -> history (cs ++ [Goal c]) (mkRoad P f s (Some i)).
Proof. intros Hi. eapply hist_call; [exact Hh|]. by apply (does_goal (mkRoad P f s t)). Qed.
End steps.
Ltac dec := apply (bool_decide_unpack _); vm_compute; exact I.
Ltac hist := lazymatch goal with
  | |- history [] _ => apply hist_new
  | |- history (_ ++ [?c]) _ =>
    lazymatch c with
    | Add _ => eapply h_add; [hist|dec]
    | Cost _ _ _ => eapply h_cost; [hist|dec..]
    | RemoveLast _ => eapply h_remove; [hist|cbn; lia|reflexivity]
    | Start _ => eapply h_start with (i := 0%nat); [hist|reflexivity]
    | Goal _ => eapply h_goal with (i := 3%nat); [hist|reflexivity]
    end
  end.
Lemma demo_history : exists g, history demo g /\ rPts g = [0; 1; 2; 3] /\ rCost g 3 2 = Some 7 /\ rCost g 3 9 = None /\ rGoal g = Some 3%nat /\ rStart g = Some 0%nat.
Proof.
  eexists. split.
  - change demo with ([] ++ [Add 0] ++ [Add 1] ++ [Add 2] ++ [Add 3] ++ [Cost 0 1 5] ++ [Cost 1 3 5] ++ [Cost 0 2 1] ++ [Cost 2 3 2] ++ [Cost 2 3 7] ++ [Add 9] ++ [Cost 3 9 1] ++ [RemoveLast 1] ++ [Start 0] ++ [Goal 3]).
    rewrite !app_assoc. hist.
  - cbn. split_and!; try done.
Qed.
Example C45_demo : (do e <- performs new_adj demo; do l <- GetSuccs e 0; do l2 <- GetSuccs e 3; do l3 <- GetSuccs e 2; Ok (l, l2, l3)) = Ok ([(1%nat, 5); (2%nat, 1)], [], [(0%nat, 1); (3%nat, 7)]).
Proof. reflexivity. Qed.

(** Refuted: removing a duplicate of a point leaves the point (a point with the same coordinates was added, and removed again; the first
    one is still there, but is no longer found, and setting the cost of one of its edges is undefined). *)
Theorem C45_duplicate_refuted : exists e, performs (C := Z) new_adj [Add 7; Add 8; Add 7; RemoveLast 1] = Ok e /\
  jPts e = [7; 8] /\ hasPoint e 7 = false /\ setCost e 7 8 1 = UB.
Proof. eexists. split; [reflexivity|]. by vm_compute. Qed.
Print Assumptions C45_duplicate_refuted.
(** Refuted: a point with a cost set to itself can be removed. *)
Theorem C45_self_edge_refuted : performs (C := Z) new_adj [Add 7; Cost 7 7 1; RemoveLast 1] = UB.
Proof. reflexivity. Qed.
Print Assumptions C45_self_edge_refuted.
(** Refuted: a point is the goal only if setGoalState was called with it (the id of a removed goal goes to the next point added). *)
Theorem C45_stale_goal_refuted : exists e, performs (C := Z) new_adj [Add 7; Add 8; Goal 8; RemoveLast 1; Add 9; Cost 9 7 1] = Ok e /\
  jPts e = [7; 9] /\ GetSuccs e 1 = Ok [] /\ GetSuccs e 0 = Ok [(1%nat, 1)].
Proof. eexists. split; [reflexivity|]. by vm_compute. Qed.
Print Assumptions C45_stale_goal_refuted.
(** Refuted: the actions of a state have different ids. *)
Theorem C45_action_ids_refuted : exists e acts, performs new_adj demo = Ok e /\ SetAllActions e 0 = Ok acts /\ aID <$> acts = [0; 0].
Proof.
  assert (E : (do e <- performs new_adj demo; do acts <- SetAllActions e 0; Ok (aID <$> acts)) = Ok [0; 0]) by (vm_compute; reflexivity).
  apply obind_ok in E as (e&E1&E). apply obind_ok in E as (acts&E2&E). exists e, acts. split; [exact E1|]. split; [exact E2|]. by injection E.
Qed.
Print Assumptions C45_action_ids_refuted.

(** ** findOptimalPath *)
Lemma loop_final e clk : (forall i, clk i = true) -> forall fuel p n p' n', search_loop fuel e clk false p n = Ok (p', n') ->
  (aSat p' <= aFinal p)%Q \/ exists g ga, aGoal p' = Some g /\ rdst (aC p') g = Ok ga /\ sG ga = INFINITECOST.
Proof.
  intros Hc. induction fuel as [|fuel IH]; intros p n p' n'; [done|]. rewrite search_loop_eq. rewrite Hc.
  destruct (Qltb (aFinal p) (aSat p)) eqn:Eq.
  - intros HE. apply obind_ok in HE as ([[r p1] n1]&EB&HE). cbn [fst snd] in HE. destruct (aGoal p1) as [g|] eqn:Eg; [|done].
    apply obind_ok in HE as (ga&Ega&HE). destruct (Z.eqb_spec (sG ga) INFINITECOST) as [Hi|Hi].
    + injection HE as <- <-. right. eauto.
    + destruct (body_rest _ _ _ _ _ _ _ _ EB) as (Hs&_). destruct Hs as (_&_&_&_&_&_&_&_&Hf).
      apply IH in HE as [HE|HE]; [left|by right]. by rewrite <- Hf.
  - intros [= <- <-]. left. destruct (Qltb_spec (aFinal p) (aSat p)); [discriminate|]. lra.
Qed.

Lemma Search_final fuel e clk p path cost p' : (forall i, clk i = true) -> aFirst p = false -> Search fuel e clk p = Ok (true, path, cost, p') -> (aSat p' <= aFinal p)%Q.
Proof.
  rewrite Search_eq. intros Ht Hf HE. apply obind_ok in HE as (p1&E1&HE). apply obind_ok in HE as ([p2 n2]&E2&HE). cbn [fst] in HE.
  destruct (prep_rest _ _ _ E1) as (_&_&_&F1&_&_&Hfin&_). rewrite F1, Hf in E2. apply (loop_final _ _ Ht) in E2 as [Hs|(g&ga&Hg&Hr&Hi)].
  - rewrite Hfin in Hs. destruct (finish_rest _ _ _ _ HE) as [->|(c'&->&_)]; done.
  - unfold finish in HE. rewrite Hg, Hr in HE. cbn [obind] in HE. rewrite Hi in HE. done.
Qed.

(** At most one entry of StateID2IndexMapping per call. *)
Lemma map_size_gen {C : Type} `{Countable C} (cs : list (call C)) : forall (e e' : adjenv (C := C)), performs e cs = Ok e' -> (jMap e' <= jMap e + length cs)%nat.
Proof.
  assert (forall n (e e' : adjenv (C := C)), remove_loop n e = Ok e' -> jMap e' = jMap e) as HR.
  { induction n as [|n IH]; intros e e'; cbn; [by intros [= <-]|]. intros HE. apply obind_ok in HE as (e1&E1&HE). rewrite (IH _ _ HE).
    unfold removeLast in E1. destruct (last (jAdj e)), (last (jPts e)); try done. apply obind_ok in E1 as (?&_&E1). by injection E1 as <-. }
  assert (forall i j k (e e' : adjenv (C := C)), set_dir e i j k = Ok e' -> jMap e' = jMap e) as HD.
  { intros i j k e e'. unfold set_dir. destruct (jAdj e !! i); [|done]. by intros [= <-]. }
  induction cs as [|c cs IH]; intros e e'; cbn [performs]; [intros [= <-]; cbn; lia|]. intros HE. apply obind_ok in HE as (e1&E1&HE). apply IH in HE.
  assert (jMap e1 <= S (jMap e))%nat; [|cbn [length]; lia]. destruct c; cbn in E1.
  - injection E1 as <-. cbn. lia.
  - unfold setCost in E1. destruct (jIds e !! a), (jIds e !! b); try done. apply obind_ok in E1 as (e2&E2&E1). apply HD in E1, E2. lia.
  - unfold removeLastPoints in E1. destruct (_ <=? _)%nat; [|done]. apply HR in E1. lia.
  - unfold setStartState in E1. destruct (jIds e !! c); [|done]. injection E1 as <-. cbn. lia.
  - unfold setGoalState in E1. destruct (jIds e !! c); [|done]. injection E1 as <-. cbn. lia.
Qed.
Lemma map_size {C : Type} `{Countable C} (cs : list (call C)) (e : adjenv (C := C)) : performs new_adj cs = Ok e -> (jMap e <= length cs)%nat.
Proof. intros HE. apply map_size_gen in HE. cbn in HE. done. Qed.

Section opt.
Context {C : Type} `{Countable C} (dist : C -> C -> Z).
Definition adjG (e : adjenv (C := C)) (i : nat) : list (nat * Z) := default [] (jAdj e !! i).
(** Walks over coordinates are routes over ids. *)
Lemma walk_route e g l a b k : rep e g -> walk (rCost g) l a b k -> forall i, rPts g !! i = Some a ->
  exists li j, route (fun x => x) (gedge true (adjG e)) li i j k /\ rPts g !! j = Some b /\ head li = Some i.
Proof.
  intros R. induction 1 as [a|a b l z c k Hab Hw IH]; intros i Hi.
  - exists [i], i. split_and!; try done. constructor.
  - destruct (rp_in _ _ R _ _ _ Hab) as (_&(j&Hj)%elem_of_list_lookup). destruct (IH j Hj) as (li&z'&Hr&Hz&Hh).
    destruct li as [|j' li]; [done|]. cbn in Hh. injection Hh as ->. exists (i :: j :: li), z'. split_and!; try done. apply (route_cons (fun x => x)); [|done].
    destruct (rep_lookup _ _ _ _ R Hi) as (l0&El). cbn. unfold adjG. rewrite El. cbn. apply (rp_edge _ _ R i a l0 Hi El). eauto.
Qed.
Lemma route_walk e g (P : nat -> nat -> Z -> Prop) li i j k : rep e g -> (forall u v c, P u v c -> gedge true (adjG e) u v c) ->
  route (fun x => x) P li i j k -> forall a, rPts g !! i = Some a ->
  exists l b, walk (rCost g) l a b k /\ rPts g !! j = Some b /\ mapM (fun x => rPts g !! x) li = Some l /\ head l = Some a.
Proof.
  intros R HP. induction 1 as [i|i j l z c k Hij Hr IH]; intros a Ha.
  - exists [a], a. split_and!; try done; [constructor|]. cbn. by rewrite Ha.
  - apply HP in Hij. cbn in Hij. unfold adjG in Hij. destruct (rep_lookup _ _ _ _ R Ha) as (l0&El). rewrite El in Hij. cbn in Hij.
    apply (rp_edge _ _ R i a l0 Ha El) in Hij as (b&Hb&Hk). destruct (IH b Hb) as (lw&z'&Hw&Hz&Hm&Hh).
    destruct lw as [|b' lw]; [done|]. cbn in Hh. injection Hh as ->. exists (a :: b :: lw), z'. split_and!; try done; [by constructor|].
    change (mapM (λ x : nat, rPts g !! x) (i :: j :: l)) with (rPts g !! i ≫= fun y => mapM (λ x : nat, rPts g !! x) (j :: l) ≫= fun k => Some (y :: k)). rewrite Hm, Ha. done.
Qed.


(** The planner as findOptimalPath sets it up. *)
Lemma setup e g s t cs : rep e g -> plannable dist g s t -> history cs g -> Z.of_nat (jMap e) <= 5000000 ->
  exists si gi p, jStart e = Some si /\ jGoal e = Some gi /\ rPts g !! si = Some s /\ rPts g !! gi = Some t /\
    (do p <- set_start (planner_view dist e) (new_ara true) si; set_goal (planner_view dist e) p gi) = Ok p /\
    reach true true 5 (mkWorld (adjG e) (planner_view dist e) p) /\ user_start p = Some si /\ user_goal p = Some gi /\
    aWrap p = false /\ aIter p = 0 /\ aCall p = 0 /\ aFinal p = 1%Q /\ aDec p = (2 # 10)%Q /\ aReinit p = true.
Proof.
  intros R [(si&Hs&Es) (gi&Hg&Eg) Hc Hd Hz Hcons] _ HM. exists si, gi.
  rewrite <- (rp_start _ _ R) in Hs. rewrite <- (rp_goal _ _ R) in Hg.
  pose proof (lookup_lt_Some _ _ _ Es) as Hsl. pose proof (lookup_lt_Some _ _ _ Eg) as Hgl. pose proof (rp_map _ _ R) as Hmap.
  assert (forall i j c, (j, c) ∈ adjG e i -> exists a b, rPts g !! i = Some a /\ rPts g !! j = Some b /\ rCost g a b = Some c) as HG.
  { intros i j c. unfold adjG. destruct (jAdj e !! i) as [l|] eqn:El; cbn; [|by intros ?%elem_of_nil].
    destruct (rPts g !! i) as [a|] eqn:Ei; [|apply lookup_ge_None in Ei; apply lookup_lt_Some in El; rewrite (rp_len _ _ R) in El; lia].
    intros Hin. apply (rp_edge _ _ R i a l Ei El) in Hin as (b&Hb&Hk). eauto. }
  assert (forall i, 0 <= get 0 (GetGoalHeuristic dist e i) < 429496729) as HH.
  { intros i. unfold GetGoalHeuristic, GetFromToHeuristic. rewrite Hg, (rp_pts _ _ R), Eg. destruct (rPts g !! i) as [a|] eqn:Ei; cbn; [|lia].
    apply Hd. by eapply elem_of_list_lookup_2. }
  set (e0 := mkEnv (jMap e) (adjG e) (fun _ => []) (fun _ => 0) (fun _ => 0)).
  assert (forall v, eSize v = jMap e -> eSuccs v = adjG e \/ v = planner_view dist e -> (forall i, 0 <= eGoalH v i < 429496729) -> good_env true 5 (adjG e) v) as HGE.
  { intros v Hv _ Hh. constructor.
    - lia.
    - intros i j c (a&b&_&Hb&Hk)%HG. split; [|by eapply Hc]. rewrite Hv. apply lookup_lt_Some in Hb. lia.
    - intros i. apply (Hh i).
    - intros i. unfold heur. specialize (Hh i). change 5%Q with (inject_Z 5). rewrite <- inject_Z_mult, <- Zlt_Qlt. lia. }
  assert (forall go, sees true true (adjG e) e0 go) as HS0.
  { intros go. constructor; try done. cbn. intros _ i j c (a&b&_&_&Hk)%HG. apply Hc in Hk. lia. }
  assert (sees true true (adjG e) (planner_view dist e) (Some gi)) as HS1.
  { constructor.
    - intros i Hi. cbn. unfold GetSuccs. rewrite Hg, bool_decide_false by congruence. unfold adjG. by destruct (jAdj e !! i).
    - intros _ i [= <-]. cbn. unfold GetGoalHeuristic, GetFromToHeuristic. by rewrite Hg, (rp_pts _ _ R), Eg.
    - intros _ i j c (a&b&Ha&Hb&Hk)%HG. cbn. unfold GetGoalHeuristic, GetFromToHeuristic. rewrite Hg, (rp_pts _ _ R), Eg, Ha, Hb. cbn. by apply Hcons. }
  assert (set_start (planner_view dist e) (new_ara true) si = set_start e0 (new_ara true) si) as Estart.
  { unfold set_start, SetSearchStartState. cbn [aFwd new_ara blank]. unfold GetState. cbn [eSize planner_view e0]. done. }
  destruct (set_start_total e0 (new_ara true) si) as (p1&E1&U1&U2&I1&C1&W1). { cbn. lia. }
  destruct (set_goal_total (planner_view dist e) p1 gi) as (p2&E2&V1&V2&I2&C2&W2). { cbn. lia. }
  destruct (set_start_rest _ _ _ _ E1) as (F1&_&X1&Y1&_). destruct (set_goal_rest _ _ _ _ E2) as (F2&_&X2&Y2&_). cbn in F1, X1, Y1. rewrite F1 in F2.
  exists p2. split_and!; try done; try congruence.
  - rewrite Estart, E1. done.
  - assert (aGoal p1 = None) as Hg1 by (unfold user_goal in U2; rewrite F1 in U2; done).
    assert (aGoal p2 = Some gi) as Hg2 by (unfold user_goal in V1; rewrite F2 in V1; done).
    eapply (reach_goal _ _ _ _ e0); [eapply (reach_start _ _ _ _ e0); [apply reach_new; try done|try done..]|try done..].
    + apply HGE; [done|by left|cbn; lia].
    + apply HGE; [done|by left|cbn; lia].
    + by right.
    + apply HGE; [done|by right|done].
    + by rewrite Hg2.
    + left. by rewrite Hg1, Hg2.
  - by rewrite W2, W1.
  - rewrite I2, I1. done.
  - rewrite C2, C1. done.
  - unfold set_start, SetSearchStartState in E1. cbn [aFwd new_ara blank] in E1. apply obind_ok in E1 as (c1&_&E1). cbn in E1. injection E1 as <-.
    unfold set_goal, SetSearchGoalState in E2. cbn [aFwd with_reinit with_start with_core new_ara blank aGoal] in E2.
    rewrite bool_decide_false in E2 by done. apply obind_ok in E2 as (c2&_&E2). injection E2 as <-. done.
Qed.
End opt.

(** C46: with time enough, findOptimalPath returns an optimal path and its cost, or nothing if no path is cheaper than INFINITECOST. *)
Theorem C46_optimal : forall (C : Type) `(Countable C) (dist : C -> C -> Z) (cs : list (call C)) (g : roadmap C) e s t fuel clk,
  history cs g -> performs new_adj cs = Ok e -> plannable dist g s t -> Z.of_nat (length cs) <= 5000000 ->
  (forall i, clk i = true) -> 27 <= Z.of_nat fuel < 65536 ->
  exists l cost, findOptimalPath dist fuel clk e = Ok (l, cost) /\
    ((walk (rCost g) l s t cost /\ cost < INFINITECOST /\ forall l' k, walk (rCost g) l' s t k -> cost <= k) \/
     (l = [] /\ cost = INFINITECOST /\ forall l' k, walk (rCost g) l' s t k -> INFINITECOST <= k)).
Proof.
  intros C ? ? dist cs g e s t fuel clk Hh He Hpl Hlen Hc Hf. destruct (history_spec cs g Hh) as (e'&Ee&R). rewrite He in Ee. injection Ee as <-.
  assert (Z.of_nat (jMap e) <= 5000000) as HM by (pose proof (map_size _ _ He); lia).
  destruct (setup dist e g s t cs R Hpl Hh HM) as (si&gi&p&Hs&Hg&Es&Eg&Ep&HR&Us&Ug&Hw&Hi&Hca&Hfi&Hde&Hre).
  set (q := mkParams 1 (aFinal p) (aDec p) false). set (v := planner_view dist e) in *.
  assert (good_params 5 q) as Hq by (unfold good_params, q; cbn; rewrite Hfi, Hde; lra).
  destruct (C23_replan_total true true 5 (mkWorld (adjG e) v p) fuel clk q si gi 25 HR Hq) as (b&path&cost&p'&Er&Hw'); cbn [wP wE]; try done.
  { intros i j _ Hi'. by rewrite Hc in Hi'. } { cbn. rewrite Hde. lra. } { cbn. rewrite Hde. unfold inject_Z, Qle. cbn. lia. } { lia. } { lia. } { lia. }
  cbn [wP wE] in Er.
  assert (forall X (k : _ -> ares X), (do p <- set_start v (new_ara true) si; do p <- set_goal v p gi; k p) = k p) as Ek.
  { intros X k. destruct (set_start v (new_ara true) si) as [p1| | |]; cbn in *; try done. rewrite Ep. done. }
  unfold findOptimalPath. rewrite Hs, Hg. cbn zeta. fold v. rewrite Ek. fold q. rewrite Er. cbn [obind fst snd].
  destruct (use_spec true true 5 (mkWorld (adjG e) v p) fuel clk q HR Hq b path cost p' Er Hw') as (_&_&s'&g'&Es'&Eg'&_&_&Hx).
  cbn [wP] in Es', Eg'. rewrite Us in Es'. rewrite Ug in Eg'. injection Es' as <-. injection Eg' as <-. destruct (Hx (Hc 0%nat)) as (Hpath&Hmax&Hb&_).
  destruct b.
  - destruct (Hpath eq_refl) as (k&Hro&Hk).
    assert (forall u w c, eedge true v u w c -> gedge true (adjG e) u w c) as Hsub.
    { intros u w c. cbn. unfold GetSuccs, adjG. case_bool_decide; cbn; [by intros ?%elem_of_nil|]. by destruct (jAdj e !! u). }
    destruct (route_walk e g (eedge true v) path si gi k R Hsub Hro s Es) as (l&b&Hwk&Hb'&Hm&_).
    rewrite Eg in Hb'. injection Hb' as <-. rewrite (rp_pts _ _ R), Hm. exists l, cost. split; [done|]. left.
    assert (get_solution_eps p' <= 1)%Q as Hsat. { pose proof (Search_final fuel v clk (set_params p q) path cost p' Hc eq_refl Er) as HF. cbn in HF. by rewrite Hfi in HF. }
    assert (forall l' k', walk (rCost g) l' s t k' -> cost <= k') as Hopt.
    { intros l' k' Hwk'. destruct (walk_route e g l' s t k' R Hwk' si Es) as (li&j&Hr'&Hj&_).
      assert (j = gi) as -> by (eapply NoDup_lookup; [apply R|done..]).
      destruct (C21_real_bound true 5 (mkWorld (adjG e) v p) fuel clk q true path cost p' HR Hq (Hc 0%nat) Er Hw') with (s := si) (g := gi) (l := li) (C := k') as (_&_&HX); try done.
      - apply Qle_lt_trans with 1%Q; [done|reflexivity].
      - by apply HX. }
    assert (cost = k) as -> by (specialize (Hopt l k Hwk); lia). split_and!; try done. by apply Hb.
  - pose proof (proj2 (Z.nlt_ge cost INFINITECOST)) as Hnl.
    assert (path = [] /\ cost = INFINITECOST) as (->&->).
    { assert (cost = INFINITECOST) as Hci; [|split; [|done]]. { destruct (Z_lt_ge_dec cost INFINITECOST) as [Hl|Hl]; [apply Hb in Hl; done|lia]. }
      unfold replan in Er. rewrite Search_eq in Er. apply obind_ok in Er as (p1&_&Er). apply obind_ok in Er as (r&_&Er). unfold finish in Er.
      destruct (aGoal r.1); [|done]. apply obind_ok in Er as (ga&_&Er). destruct (sG ga =? INFINITECOST); [by injection Er|]. apply obind_ok in Er as (?&_&?). discriminate. }
    exists [], INFINITECOST. split; [done|]. right. split_and!; try done. intros l' k' Hwk'.
    destruct (walk_route e g l' s t k' R Hwk' si Es) as (li&j&Hr'&Hj&_). assert (j = gi) as -> by (eapply NoDup_lookup; [apply R|done..]).
    destruct (C22_failure_from_scratch true 5 (mkWorld (adjG e) v p) fuel clk q [] INFINITECOST p' HR Hq Hc Hre Er Hw' 1%Q si gi li k') as (_&HX); try done.
    { cbn. rewrite Hfi. lra. } apply HX; [lra|done].
Qed.
Print Assumptions C46_optimal.

Lemma lift_ok' {X A} x (r : outcome X A) a : lift x r = Ok a -> r = Ok a.
Proof. destruct r; try discriminate. by intros [= ->]. Qed.
(** The demo roadmap meets the hypotheses (with distance 0, i.e. no heuristic), and has a path of cost 8. *)
Example C46_demo : exists g e, history demo g /\ performs new_adj demo = Ok e /\ plannable (fun _ _ => 0) g 0 3 /\
  findOptimalPath (fun _ _ => 0) 27 (fun _ => true) e = Ok ([0; 2; 3], 8).
Proof.
  destruct demo_history as (g&Hh&Hp&_&_&Hg&Hs).
  assert (E : (do e <- lift XHeap (performs new_adj demo); findOptimalPath (fun _ _ => 0) 27 (fun _ => true) e) = Ok ([0; 2; 3], 8)) by (vm_compute; reflexivity).
  apply obind_ok in E as (e&E1&E2). apply lift_ok' in E1.
  exists g, e. split; [exact Hh|]. split; [exact E1|]. split; [|exact E2]. clear E1 E2.
  assert (forall (cs : list (call Z)) g, history cs g -> Forall (fun c => match c with Cost _ _ k => 0 < k <= INFINITECOST | _ => True end) cs -> forall a b k, rCost g a b = Some k -> 0 < k <= INFINITECOST) as HK.
  { clear. intros cs g Hh. induction Hh as [|cs g c g' _ IH Hd]; [done|]. intros Hf%Forall_app. destruct Hf as (Hf&Hc). rewrite Forall_singleton in Hc.
    destruct Hd as [| |g n l Hn Hl| |]; cbn; try (by apply IH).
    - intros x y d. destruct (decide _); [intros [= <-]; done|by apply IH].
    - intros x y d. destruct (decide _); [by apply IH|done]. }
  constructor.
  - exists 0%nat. rewrite Hp. done.
  - exists 3%nat. rewrite Hp. done.
  - apply (HK demo g Hh). repeat constructor; done.
  - intros; lia.
  - done.
  - intros a b k Hk. apply (HK demo g Hh) in Hk; [lia|]. repeat constructor; done.
Qed.
