(** C26-C30: the 2D navigation environment. *)
From Coq Require Import ZifyBool ZifyNat.
From Verif Require Import Base NavModel NavSpec NavProofs NavProofs2.
Local Open Scope Z_scope.

(** C26: asking for a coordinate always works and gives an id whose coordinate is the one asked for;
    after any later calls the same coordinate has the same id (and asking changes nothing). *)
Theorem C26_coordinate_id_stable : forall e x y, nav_reachable e ->
  exists id e1, GetStateFromCoord e x y = Ok (id, e1) /\ id_of e1 id (x, y) /\
    (forall e2, nafter e1 e2 -> GetStateFromCoord e2 x y = Ok (id, e2) /\ id_of e2 id (x, y)).
Proof. exact gsfc_stable. Qed.
Print Assumptions C26_coordinate_id_stable.
(** One coordinate never has two ids; an id never changes its coordinate. *)
Theorem C26_ids_injective : forall e a b c, nav_reachable e -> id_of e a c -> id_of e b c -> a = b.
Proof. exact id_unique. Qed.
Print Assumptions C26_ids_injective.
Theorem C26_ids_permanent : forall e e' a c, nav_reachable e -> nafter e e' -> id_of e a c -> id_of e' a c.
Proof. exact id_of_stable. Qed.
Print Assumptions C26_ids_permanent.
(** Initialisation: start and goal have the given coordinates, the map is the given one. *)
Theorem C26_initialisation : forall v w h m sx sy gx gy obs e0,
  InitializeEnv (SetEnvParameter16 new_nav v).2 w h m sx sy gx gy obs = Ok e0 ->
  nW e0 = w /\ nH e0 = h /\ nObs e0 = obs /\ sixteen e0 = negb (v =? 0) /\ in_map w h (sx, sy) /\
  id_of e0 (nStart e0) (sx, sy) /\ id_of e0 (nGoal e0) (gx, gy) /\
  (forall c, in_map w h c -> cellcost e0 c = match m with None => 0 | Some f => f (c.1 + c.2 * w) end).
Proof.
  intros v w h m sx sy gx gy obs e0 E. destruct (init_ok _ _ _ _ _ _ _ _ _ _ E) as (_&?&?&?&Hd&?&?&?&?&_).
  split_and!; try done. unfold sixteen. rewrite Hd. by destruct (v =? 0).
Qed.
Print Assumptions C26_initialisation.
(** It succeeds for every start inside the map. *)
Theorem C26_initialisation_succeeds : forall v w h m sx sy gx gy obs, in_map w h (sx, sy) ->
  exists e0, InitializeEnv (SetEnvParameter16 new_nav v).2 w h m sx sy gx gy obs = Ok e0.
Proof. exact init_succeeds. Qed.
Print Assumptions C26_initialisation_succeeds.
(** Finding: an environment object can be initialised only once; every later InitializeEnv throws,
    because StateID2IndexMapping is not cleared with the other tables. *)
Theorem C26_second_initialisation_throws : forall e w h m sx sy gx gy obs, nav_reachable e ->
  exists e', InitializeEnv e w h m sx sy gx gy obs = Exn e'.
Proof. exact reinit_throws. Qed.
Print Assumptions C26_second_initialisation_throws.

(** C28: for a state inside the map, GetSuccs returns normally (no map read out of range, no
    exception) and lists exactly the edges of the graph [nedge] once each; the goal has none. *)
Theorem C28_succs_exact : forall e id s, nav_reachable e -> id_of e id s -> in_map (nW e) (nH e) s ->
  exists l e', GetSuccs e id = Ok (l, e') /\ NoDup (l.*1) /\
    (id = nGoal e -> l = []) /\
    (id <> nGoal e -> forall t c, listed e' l t c <-> nedge e s t c).
Proof.
  intros e id s Hr Hid Hs. destruct (reachable_ok e Hr) as [Hok _]. apply gcfs_id in Hid.
  destruct (decide (id = nGoal e)) as [->|Hg].
  - exists [], e. rewrite GetSuccs_goal. split_and!; try done. constructor.
  - destruct (GetSuccs_spec e id s Hok Hid Hs Hg) as (l&e'&E&_&_&Hn&Hl). exists l, e'. by split_and!.
Qed.
Print Assumptions C28_succs_exact.
(** The same for GetPreds: exactly the edges into t from cells of the map, except that within two
    cells of the border obstacle cells are not listed as predecessors ([pedge]). *)
Theorem C28_preds_exact : forall e id t, nav_reachable e -> id_of e id t -> in_map (nW e) (nH e) t ->
  exists l e', GetPreds e id = Ok (l, e') /\ NoDup (l.*1) /\ forall s c, listed e' l s c <-> pedge e s t c.
Proof.
  intros e id s Hr Hid Hs. destruct (reachable_ok e Hr) as [Hok _]. apply gcfs_id in Hid.
  destruct (GetPreds_spec e id s Hok Hid Hs) as (l&e'&E&_&_&Hn&Hl). exists l, e'. split_and!; [done..|].
  intros t c. rewrite Hl. unfold pedge. by rewrite near_border_spec.
Qed.
Print Assumptions C28_preds_exact.
(** SetAllActionsandAllOutcomes yields the successors of GetSuccs in the same order, one action each. *)
Theorem C28_actions_are_succs : forall e id s, nav_reachable e -> id_of e id s -> in_map (nW e) (nH e) s ->
  exists la l e', SetAllActionsandAllOutcomes e id = Ok (la, e') /\ GetSuccs e id = Ok (l, e') /\
    l = (fun a => (a.1.2, a.2)) <$> la.
Proof.
  intros e id s Hr Hid Hs. destruct (C28_succs_exact e id s Hr Hid Hs) as (l&e'&E&_).
  pose proof (SetAllActions_sim e id) as Hsim. rewrite E in Hsim.
  destruct (SetAllActionsandAllOutcomes e id) as [[la e1]| | |]; try done. cbn in Hsim. injection Hsim as -> ->.
  by exists la, (unlabel <$> la), e1.
Qed.
Print Assumptions C28_actions_are_succs.

(** C27: forward and backward view agree for every pair of in-map states whose source is
    traversable and not the goal. *)
Theorem C27_succs_preds_agree : forall e a b s t, nav_reachable e -> id_of e a s -> id_of e b t ->
  in_map (nW e) (nH e) s -> in_map (nW e) (nH e) t -> a <> nGoal e -> cellcost e s < nObs e ->
  exists ls es lp ep, GetSuccs e a = Ok (ls, es) /\ GetPreds e b = Ok (lp, ep) /\
    forall c, (b, c) ∈ ls <-> (a, c) ∈ lp.
Proof.
  intros e a b s t Hr Ha Hb Hs Ht Hg Hc. destruct (reachable_ok e Hr) as [Hok _]. apply gcfs_id in Ha, Hb.
  destruct (GetSuccs_spec e a s Hok Ha Hs Hg) as (ls&es&Es&Hoks&Hxs&_&Hls).
  destruct (GetPreds_spec e b t Hok Hb Ht) as (lp&ep&Ep&Hokp&Hxp&_&Hlp).
  exists ls, es, lp, ep. split_and!; [done..|]. intros c.
  assert ((b, c) ∈ ls <-> listed es ls t c) as ->.
  { unfold listed. pose proof (ext_lookup _ _ _ _ Hxs Hb) as Hb'. split.
    - intros Hin. exists b. split; [done|by apply gcfs_id].
    - intros (i&Hi&Hid). apply gcfs_id in Hid. by rewrite (NoDup_lookup _ b i t (ok_nodup _ Hoks) Hb' Hid). }
  assert ((a, c) ∈ lp <-> listed ep lp s c) as ->.
  { unfold listed. pose proof (ext_lookup _ _ _ _ Hxp Ha) as Ha'. split.
    - intros Hin. exists a. split; [done|by apply gcfs_id].
    - intros (i&Hi&Hid). apply gcfs_id in Hid. by rewrite (NoDup_lookup _ a i s (ok_nodup _ Hokp) Ha' Hid). }
  rewrite Hls, Hlp. tauto.
Qed.
Print Assumptions C27_succs_preds_agree.

(** C30: change notification.  e2 is the environment after the costs of (at most) the cells cs were
    changed; every in-map state whose outgoing edges differ is in GetPredsofChangedEdges, every one
    whose incoming edges (as GetPreds reports them) differ is in GetSuccsofChangedEdges; nothing but cs and their neighbours is listed. *)
Theorem C30_notification_complete : forall e1 e2 cs, nav_reachable e1 -> nafter e1 e2 ->
  (forall c, c ∉ cs -> cellcost e1 c = cellcost e2 c) ->
  exists l e3, GetPredsofChangedEdges e2 cs = Ok (l, e3) /\ GetSuccsofChangedEdges e2 cs = Ok (l, e3) /\
    (forall s, in_map (nW e2) (nH e2) s -> (exists t c, ~ (nedge e1 s t c <-> nedge e2 s t c)) ->
       exists id, id ∈ l /\ id_of e3 id s) /\
    (forall t, in_map (nW e2) (nH e2) t -> (exists s c, ~ (pedge e1 s t c <-> pedge e2 s t c)) ->
       exists id, id ∈ l /\ id_of e3 id t) /\
    (forall id s, id ∈ l -> id_of e3 id s ->
       s ∈ cs \/ in_map (nW e2) (nH e2) s /\ exists c len, c ∈ cs /\ is_move (sixteen e2) (s.1 - c.1) (s.2 - c.2) len).
Proof.
  intros e1 e2 cs Hr Ha Hsame. destruct (reachable_ok e1 Hr) as [Hok1 _]. destruct (nafter_ok _ _ Hok1 Ha) as [Hok2 Hx].
  destruct (changed_list_spec e2 cs Hok2) as (l&e3&[Ep Es]&Hok3&_&Hl). exists l, e3. split_and!; [done|done| | |].
  - intros s Hs (t&c&Hne). apply Hl. destruct (chg_dec e2 cs s Hok2) as [|Hn]; [done|]. exfalso. apply Hne.
    by apply (edge_same e1 e2 Hx cs Hsame).
  - intros t Ht (s&c&Hne). apply Hl. destruct (chg_dec e2 cs t Hok2) as [|Hn]; [done|]. exfalso. apply Hne.
    by apply (pedge_same e1 e2 Hx cs Hsame).
  - intros id s Hi Hid. apply Hl. eauto.
Qed.
Print Assumptions C30_notification_complete.

(** C29: what does hold of the heuristic (cell costs are unsigned chars, hence non-negative). *)
Theorem C29_heuristic_bounds : forall e a b s t, id_of e a s -> id_of e b t -> (forall x, 0 <= cellcost e x) ->
  exists h, GetFromToHeuristic e a b = Ok h /\ 0 <= h /\ GetFromToHeuristic e b a = Ok h /\ (s = t -> h = 0) /\
    (forall C, npath e s t C -> 5000 * h <= 5001 * C).
Proof.
  intros e a b s t Ha Hb Hpos. unfold GetFromToHeuristic. unfold id_of in *. rewrite Ha, Hb. cbn [obind].
  eexists. split; [done|]. split_and!.
  - apply euclid_bounds.
  - by rewrite euclid_sym.
  - intros ->. apply euclid_self.
  - intros C. by apply heur_path.
Qed.
Print Assumptions C29_heuristic_bounds.
(** Consistency up to one unit of rounding on every edge. *)
Theorem C29_heuristic_consistent_within_one : forall e a b g s t gc c,
  id_of e a s -> id_of e b t -> id_of e g gc -> (forall x, 0 <= cellcost e x) -> nedge e s t c ->
  exists ha hb, GetFromToHeuristic e a g = Ok ha /\ GetFromToHeuristic e b g = Ok hb /\ ha <= c + hb + 1.
Proof.
  intros e a b g s t gc c Ha Hb Hg Hpos He. unfold GetFromToHeuristic. unfold id_of in *. rewrite Ha, Hb, Hg. cbn [obind].
  eexists _, _. split_and!; [done..|]. by eapply near_consistent.
Qed.
Print Assumptions C29_heuristic_consistent_within_one.

(** * Concrete environments: non-vacuity and findings *)
Definition demo_env (v : Z) (m : Z -> Z) (gx gy : Z) : nres nav :=
  InitializeEnv (SetEnvParameter16 new_nav v).2 6 6 (Some m) 0 0 gx gy 1.
Definition empty_map (_ : Z) : Z := 0.
(** The only obstacle is the cell (0,0). *)
Definition corner_map (i : Z) : Z := if i =? 0 then 5 else 0.

Lemma demo_reachable v m gx gy e : demo_env v m gx gy = Ok e -> nav_reachable e.
Proof. intros E. exists v, 6, 6, (Some m), 0, 0, gx, gy, 1, e. split; [exact E|]. by exists []. Qed.
Lemma demo_exists v m gx gy : exists e, demo_env v m gx gy = Ok e.
Proof. unfold demo_env. apply (C26_initialisation_succeeds v 6 6 (Some m) 0 0 gx gy 1). unfold in_map. simpl. lia. Qed.
Lemma demo_cost m gx gy v e c : demo_env v m gx gy = Ok e -> in_map 6 6 c -> cellcost e c = m (c.1 + c.2 * 6).
Proof. intros E Hc. destruct (C26_initialisation _ _ _ _ _ _ _ _ _ _ E) as (_&_&_&_&_&_&_&Hm). by rewrite Hm. Qed.

Lemma demo_zero v gx gy e : demo_env v empty_map gx gy = Ok e -> forall x, cellcost e x = 0.
Proof.
  intros E x. destruct (decide (in_map 6 6 x)) as [H|H]; [by rewrite (demo_cost empty_map gx gy v e x E H)|].
  unfold cellcost. destruct (reachable_ok e (demo_reachable _ _ _ _ _ E)) as [Hok _].
  destruct (C26_initialisation _ _ _ _ _ _ _ _ _ _ E) as (EW&EH&_).
  destruct (nGrid e !! x) eqn:Eg; [|done]. exfalso. apply H.
  assert (in_map (nW e) (nH e) x) as Hi by (apply (ok_grid e Hok); by eauto). by rewrite EW, EH in Hi.
Qed.
Lemma demo_nonneg v gx gy e : demo_env v empty_map gx gy = Ok e -> forall x, 0 <= cellcost e x.
Proof. intros E x. by rewrite (demo_zero _ _ _ _ E). Qed.
(** An edge between two free cells of the empty 6x6 map. *)
Lemma demo_edge v gx gy e s t len : demo_env v empty_map gx gy = Ok e -> in_map 6 6 t ->
  is_move (negb (v =? 0)) (t.1 - s.1) (t.2 - s.2) len -> nedge e s t len.
Proof.
  intros E Ht Hm. pose proof (demo_zero v gx gy e E) as Hz.
  destruct (C26_initialisation _ _ _ _ _ _ _ _ _ _ E) as (EW&EH&EO&ES&_).
  exists len, 0. rewrite EW, EH, EO, ES. split_and!; [done|done| | |lia|lia].
  - intros x _. by rewrite Hz.
  - exists t. split; [apply touched_here|]. by rewrite Hz.
Qed.

Opaque demo_env.
(** C29 finding: the heuristic overestimates: five diagonal moves cost 5*1414 = 7070 but the
    heuristic is floor(1000*sqrt(50)) = 7071; neither admissible nor consistent. *)
Theorem C29_admissibility_refuted : exists e a b s t C h, nav_reachable e /\ id_of e a s /\ id_of e b t /\
  (forall x, 0 <= cellcost e x) /\ npath e s t C /\ GetFromToHeuristic e a b = Ok h /\ C < h.
Proof.
  destruct (demo_exists 0 empty_map 5 5) as [e E]. destruct (C26_initialisation _ _ _ _ _ _ _ _ _ _ E) as (_&_&_&_&_&Hst&Hgo&_).
  exists e, (nStart e), (nGoal e), (0, 0), (5, 5), 7070, 7071. split_and!; [by eapply demo_reachable|done|done|by eapply demo_nonneg| | |lia].
  - change 7070 with (1414 + (1414 + (1414 + (1414 + (1414 + 0))))).
    econstructor; [eapply (demo_edge 0 5 5 e (0, 0) (1, 1)); [exact E|..]; unfold in_map, is_move; simpl; lia|].
    econstructor; [eapply (demo_edge 0 5 5 e (1, 1) (2, 2)); [exact E|..]; unfold in_map, is_move; simpl; lia|].
    econstructor; [eapply (demo_edge 0 5 5 e (2, 2) (3, 3)); [exact E|..]; unfold in_map, is_move; simpl; lia|].
    econstructor; [eapply (demo_edge 0 5 5 e (3, 3) (4, 4)); [exact E|..]; unfold in_map, is_move; simpl; lia|].
    econstructor; [eapply (demo_edge 0 5 5 e (4, 4) (5, 5)); [exact E|..]; unfold in_map, is_move; simpl; lia|].
    constructor.
  - unfold GetFromToHeuristic. unfold id_of in *. rewrite Hst, Hgo. cbn [obind]. vm_compute. reflexivity.
Qed.
Print Assumptions C29_admissibility_refuted.

(** C27 finding: from an obstacle cell at the border the forward view has an edge that the backward view lacks
    (start (0,0) is an obstacle: GetSuccs(start) lists (1,1), GetPreds((1,1)) does not list the start). *)
Theorem C27_obstacle_source_refuted : exists e a b s t, nav_reachable e /\ id_of e a s /\ id_of e b t /\
  in_map (nW e) (nH e) s /\ in_map (nW e) (nH e) t /\ a <> nGoal e /\
  exists ls es lp ep c, GetSuccs e a = Ok (ls, es) /\ GetPreds e b = Ok (lp, ep) /\ (b, c) ∈ ls /\ (a, c) ∉ lp.
Proof.
  destruct (demo_exists 0 corner_map 1 1) as [e E]. pose proof (demo_reachable _ _ _ _ _ E) as Hr.
  assert (forall c, in_map 6 6 c -> cellcost e c = corner_map (c.1 + c.2 * 6)) as Hcost by exact (fun c => demo_cost corner_map 1 1 0 e c E).
  destruct (C26_initialisation _ _ _ _ _ _ _ _ _ _ E) as (EW&EH&EO&ES&_&Hst&Hgo&_). clear E.
  assert (nStart e <> nGoal e) as Hne.
  { intros Heq. rewrite Heq in Hst. unfold id_of in *. rewrite Hst in Hgo. discriminate. }
  exists e, (nStart e), (nGoal e), (0, 0), (1, 1). rewrite EW, EH.
  split_and!; [done|done|done|unfold in_map; simpl; lia|unfold in_map; simpl; lia|done|].
  destruct (reachable_ok e Hr) as [Hok _]. pose proof Hst as Hst'. pose proof Hgo as Hgo'. apply gcfs_id in Hst', Hgo'.
  destruct (GetSuccs_spec e (nStart e) (0, 0) Hok Hst') as (ls&es&Es&Hoks&Hxs&_&Hls); [rewrite EW, EH; unfold in_map; simpl; lia|done|].
  destruct (GetPreds_spec e (nGoal e) (1, 1) Hok Hgo') as (lp&ep&Ep&Hokp&Hxp&_&Hlp); [rewrite EW, EH; unfold in_map; simpl; lia|].
  exists ls, es, lp, ep, 1414. split_and!; [done|done| |].
  - assert (nedge e (0, 0) (1, 1) 1414) as He.
    { exists 1414, 0. rewrite EW, EH, EO, ES. split_and!; [unfold is_move; simpl; lia|unfold in_map; simpl; lia| | |lia|lia].
      - intros x Hx. change (touched (0, 0) (1, 1)) with [(1, 1); (0, 1); (1, 0)] in Hx.
        repeat (apply elem_of_cons in Hx as [->|Hx]; [rewrite Hcost; [reflexivity|unfold in_map; simpl; lia]|]). by apply elem_of_nil in Hx.
      - exists (1, 1). split; [apply touched_here|]. rewrite Hcost; [reflexivity|unfold in_map; simpl; lia]. }
    apply Hls in He as (i&Hi&Hid). apply gcfs_id in Hid.
    by rewrite (NoDup_lookup _ (nGoal e) i (1, 1) (ok_nodup _ Hoks) (ext_lookup _ _ _ _ Hxs Hgo') Hid).
  - intros Hin. assert (listed ep lp (0, 0) 1414) as Hl.
    { exists (nStart e). split; [done|]. apply gcfs_id. by eapply ext_lookup. }
    apply Hlp in Hl as (_&_&Hv). specialize (Hv ltac:(unfold bTestBounds; rewrite EW, EH; reflexivity)).
    rewrite EO in Hv. rewrite Hcost in Hv; [|unfold in_map; simpl; lia]. vm_compute in Hv. done.
Qed.
Print Assumptions C27_obstacle_source_refuted.

(** C28 finding: InitializeEnv does not check the goal; a goal outside the map makes GetPreds(goal),
    i.e. the first step of a backward search, read outside the map. *)
Theorem C28_goal_outside_map_refuted : exists e, nav_reachable e /\ GetPreds e (nGoal e) = UB.
Proof.
  destruct (demo_exists 0 empty_map 20 20) as [e E]. pose proof (demo_reachable _ _ _ _ _ E) as Hr.
  destruct (reachable_ok e Hr) as [Hok _]. destruct (C26_initialisation _ _ _ _ _ _ _ _ _ _ E) as (EW&EH&_&_&_&_&Hgo&_). clear E.
  exists e. split; [done|]. unfold GetPreds. unfold id_of in Hgo. rewrite Hgo. cbn [obind fst snd].
  unfold rdgrid. destruct (nGrid e !! (20, 20)) eqn:Eg; [|done]. exfalso.
  assert (in_map (nW e) (nH e) (20, 20)) as Hi by (apply (ok_grid e Hok); by eauto).
  rewrite EW, EH in Hi. unfold in_map in Hi. simpl in Hi. lia.
Qed.
Print Assumptions C28_goal_outside_map_refuted.

(** Non-vacuity of C27/C28/C30: a reachable 16-connected environment with an in-map, non-goal start, an edge of each length class,
    and a cost change that does alter the edges. *)
Example demo_nonvacuous : exists e, nav_reachable e /\ in_map (nW e) (nH e) (0, 0) /\ id_of e (nStart e) (0, 0) /\
  nStart e <> nGoal e /\ cellcost e (0, 0) < nObs e /\ nedge e (0, 0) (1, 0) 1000 /\ nedge e (0, 0) (1, 1) 1414 /\ nedge e (0, 0) (2, 1) 2236.
Proof.
  destruct (demo_exists 1 empty_map 5 5) as [e E]. destruct (C26_initialisation _ _ _ _ _ _ _ _ _ _ E) as (EW&EH&EO&_&_&Hst&Hgo&_).
  exists e. rewrite EW, EH, EO. split_and!; [by eapply demo_reachable|unfold in_map; simpl; lia|done| | | | |].
  - intros Heq. rewrite Heq in Hst. unfold id_of in *. rewrite Hst in Hgo. discriminate.
  - rewrite (demo_cost empty_map 5 5 1 e _ E); [done|unfold in_map; simpl; lia].
  - apply (demo_edge 1 5 5 e); [exact E|..]; unfold in_map, is_move; simpl; lia.
  - apply (demo_edge 1 5 5 e); [exact E|..]; unfold in_map, is_move; simpl; lia.
  - apply (demo_edge 1 5 5 e); [exact E|..]; unfold in_map, is_move; simpl; lia.
Qed.
Example demo_change : exists e e2, nav_reachable e /\ UpdateCost e 1 1 5 = Ok e2 /\ nafter e e2 /\
  (forall c, c ∉ [(1, 1)] -> cellcost e c = cellcost e2 c) /\
  nedge e (0, 0) (1, 1) 1414 /\ ~ nedge e2 (0, 0) (1, 1) 1414.
Proof.
  destruct (demo_exists 1 empty_map 5 5) as [e E]. pose proof (demo_reachable _ _ _ _ _ E) as Hr. destruct (reachable_ok e Hr) as [Hok _].
  destruct (C26_initialisation _ _ _ _ _ _ _ _ _ _ E) as (EW&EH&EO&_&_&Hst&Hgo&_).
  assert (is_Some (nGrid e !! (1, 1))) as [v Ev] by (apply (ok_grid e Hok); rewrite EW, EH; unfold in_map; simpl; lia).
  assert (UpdateCost e 1 1 5 = Ok _) as EU by (unfold UpdateCost; rewrite Ev; reflexivity).
  eexists e, _. split_and!; [done|exact EU| | | |].
  - exists [NUpdate 1 1 5]. cbn [nrun nexec]. by rewrite EU.
  - intros c Hc. unfold cellcost. cbn. rewrite lookup_insert_ne; [done|]. intros <-. apply Hc. by left.
  - apply (demo_edge 1 5 5 e); [exact E|..]; unfold in_map, is_move; simpl; lia.
  - intros He. apply nedge_target in He. unfold cellcost in He. cbn in He. rewrite lookup_insert in He. cbn in He. lia.
Qed.

(** C35: SetStart and SetGoal refuse coordinates outside the map and change nothing then; otherwise they return the id of
    exactly that cell and make it the start (goal), leaving the other one, the map and all ids as they were. *)
Definition same_map (e e' : nav) : Prop :=
  nW e' = nW e /\ nH e' = nH e /\ nObs e' = nObs e /\ sixteen e' = sixteen e /\ forall c, cellcost e' c = cellcost e c.
Theorem C35_SetStart_exact : forall e x y, nav_reachable e ->
  (~ in_map (nW e) (nH e) (x, y) -> SetStart e x y = Ok (None, e)) /\
  (in_map (nW e) (nH e) (x, y) -> exists id e', SetStart e x y = Ok (Some id, e') /\ id_of e' id (x, y) /\ nStart e' = id /\
     nGoal e' = nGoal e /\ same_map e e' /\ forall i c, id_of e i c -> id_of e' i c).
Proof.
  intros e x y Hr. destruct (reachable_ok e Hr) as [Hok _]. unfold SetStart. split; intros Hin.
  - destruct (IsWithinMapCell e x y) eqn:E; [|done]. apply within_spec in E. done.
  - assert (IsWithinMapCell e x y = true) as E by by apply within_spec. rewrite E. cbn [negb].
    unfold IsValidCell. rewrite E, rdgrid_spec by done. cbn [mbind obind].
    destruct (gsfc_spec e x y Hok) as (id&e'&Eg&Hok'&Hext&Hid). rewrite Eg. cbn [mbind obind fst snd].
    eexists id, _. split; [reflexivity|]. pose proof Hext as (EW&EH&EO&ED&EG&Egl&Est&_). split_and!.
    + by apply gcfs_id.
    + done.
    + done.
    + unfold same_map, sixteen, cellcost. cbn. rewrite EW, EH, EO, ED, EG. split_and!; done.
    + intros i c Hi. apply gcfs_id. apply gcfs_id in Hi. exact (ext_lookup _ _ _ _ Hext Hi).
Qed.
Print Assumptions C35_SetStart_exact.
Theorem C35_SetGoal_exact : forall e x y, nav_reachable e ->
  (~ in_map (nW e) (nH e) (x, y) -> SetGoal e x y = Ok (None, e)) /\
  (in_map (nW e) (nH e) (x, y) -> exists id e', SetGoal e x y = Ok (Some id, e') /\ id_of e' id (x, y) /\ nGoal e' = id /\
     nStart e' = nStart e /\ same_map e e' /\ forall i c, id_of e i c -> id_of e' i c).
Proof.
  intros e x y Hr. destruct (reachable_ok e Hr) as [Hok _]. unfold SetGoal. split; intros Hin.
  - destruct (IsWithinMapCell e x y) eqn:E; [|done]. apply within_spec in E. done.
  - assert (IsWithinMapCell e x y = true) as E by by apply within_spec. rewrite E. cbn [negb].
    unfold IsValidCell. rewrite E, rdgrid_spec by done. cbn [mbind obind].
    destruct (gsfc_spec e x y Hok) as (id&e'&Eg&Hok'&Hext&Hid). rewrite Eg. cbn [mbind obind fst snd].
    eexists id, _. split; [reflexivity|]. pose proof Hext as (EW&EH&EO&ED&EG&Egl&Est&_). split_and!.
    + by apply gcfs_id.
    + done.
    + done.
    + unfold same_map, sixteen, cellcost. cbn. rewrite EW, EH, EO, ED, EG. split_and!; done.
    + intros i c Hi. apply gcfs_id. apply gcfs_id in Hi. exact (ext_lookup _ _ _ _ Hext Hi).
Qed.
Print Assumptions C35_SetGoal_exact.
(** UpdateCost changes the cost of exactly that cell and nothing else; outside the map it writes out of bounds. *)
Theorem C35_UpdateCost_exact : forall e x y v, nav_reachable e ->
  (in_map (nW e) (nH e) (x, y) -> exists e', UpdateCost e x y v = Ok e' /\ cellcost e' (x, y) = v /\
     (forall c, c <> (x, y) -> cellcost e' c = cellcost e c) /\
     nW e' = nW e /\ nH e' = nH e /\ nObs e' = nObs e /\ sixteen e' = sixteen e /\ nStart e' = nStart e /\ nGoal e' = nGoal e /\
     forall i c, id_of e' i c <-> id_of e i c) /\
  (~ in_map (nW e) (nH e) (x, y) -> UpdateCost e x y v = UB).
Proof.
  intros e x y v Hr. destruct (reachable_ok e Hr) as [Hok _]. unfold UpdateCost. split; intros Hin.
  - apply (ok_grid e Hok) in Hin as [w Ew]. rewrite Ew. eexists. split; [reflexivity|]. unfold cellcost. cbn. split_and!; try done.
    + by rewrite lookup_insert.
    + intros c Hc. by rewrite lookup_insert_ne.
  - destruct (nGrid e !! (x, y)) eqn:Ew; [|done]. exfalso. apply Hin, (ok_grid e Hok). by rewrite Ew.
Qed.
Print Assumptions C35_UpdateCost_exact.
