(** Model of class template AdjacencyListSBPLEnv,
    /repo/src/include/sbpl/discrete_space_information/environment_precomputed_adjacency_list.h,
    and of its use of the ARA* planner (AraModel).

    What is simplified:
    - Coords is any countable type; std::map<Coords, int> is a finite map (two keys are the same key iff they are equal).
    - std::list<Adjacency> is a list of (neighbor, cost); int ids are natural numbers, -1 is None.
    - A failed assert, the dereference of an end() iterator and the use of an erased iterator are [UB].
    - The entries of StateID2IndexMapping live in the planner model; here only the number of entries is kept.
    - Printing is dropped. *)
From Verif Require Import Base MdpModel AraModel.
From Coq Require Import QArith.
Local Open Scope Z_scope.

Section adj.
Context {C : Type} `{Countable C}.
Context (dist : C -> C -> Z). (* Coords::heuristicDistanceTo *)

(** h:120-126 members, and StateID2IndexMapping.size(). *)
Record adjenv := mkAdj {
  jPts : list C;                        (* points_ *)
  jIds : gmap C nat;                    (* pointIds_ *)
  jAdj : list (list (nat * Z));         (* adjacency_vector_ *)
  jMap : nat;                           (* StateID2IndexMapping.size() *)
  jStart : option nat;
  jGoal : option nat
}.
Notation jres := (outcome unit).

(** h:129-133 constructor. *)
Definition new_adj : adjenv := mkAdj [] ∅ [] 0 None None.

(** h:155-168 addPoint. *)
Definition addPoint (e : adjenv) (c : C) : adjenv :=
  mkAdj (jPts e ++ [c]) (<[c := length (jPts e)]> (jIds e)) (jAdj e ++ [[]]) (S (jMap e)) (jStart e) (jGoal e).

(** h:170-174 hasPoint. *)
Definition hasPoint (e : adjenv) (c : C) : bool := bool_decide (is_Some (jIds e !! c)).

(** h:188-197 inner loop of removeLastPoints: the first entry for point k is erased. *)
Fixpoint erase_to (k : nat) (l : list (nat * Z)) : list (nat * Z) :=
  match l with
  | [] => []
  | a :: l => if (a.1 =? k)%nat then l else a :: erase_to k l
  end.
(** h:183-199 outer loop over the neighbours of the last point. When the neighbour is the point itself, the first entry for it is
    the very node the outer iterator stands on (setCost keeps at most one entry per neighbour): the iterator is
    invalidated by erase and then incremented. *)
Fixpoint unlink (k : nat) (todo : list (nat * Z)) (adj : list (list (nat * Z))) : jres (list (list (nat * Z))) :=
  match todo with
  | [] => Ok adj
  | a :: todo =>
    if (a.1 =? k)%nat then UB
    else match adj !! a.1 with
         | None => UB                                     (* assert(adj_iter->neighbor < num_points) *)
         | Some l => unlink k todo (<[a.1 := erase_to k l]> adj)
         end
  end.
(** h:179-203 one round of the loop of removeLastPoints. *)
Definition removeLast (e : adjenv) : jres adjenv :=
  let k := (length (jPts e) - 1)%nat in
  match last (jAdj e), last (jPts e) with
  | Some a, Some c =>
    do adj <- unlink k a (jAdj e);
    Ok (mkAdj (take k (jPts e)) (delete c (jIds e)) (take (length adj - 1) adj) (jMap e) (jStart e) (jGoal e))
  | _, _ => UB
  end.
(** h:176-205 removeLastPoints. *)
Fixpoint remove_loop (n : nat) (e : adjenv) : jres adjenv :=
  match n with
  | O => Ok e
  | S n => do e <- removeLast e; remove_loop n e
  end.
Definition removeLastPoints (e : adjenv) (n : nat) : jres adjenv :=
  if (n <=? length (jPts e))%nat then remove_loop n e else UB. (* assert(n <= points_.size()) *)

(** h:235-250 search of the entry, then change or append. *)
Fixpoint set_edge (l : list (nat * Z)) (k : nat) (cost : Z) : list (nat * Z) :=
  match l with
  | [] => [(k, cost)]
  | a :: l => if (a.1 =? k)%nat then (k, cost) :: l else a :: set_edge l k cost
  end.
Definition set_dir (e : adjenv) (i j : nat) (cost : Z) : jres adjenv :=
  match jAdj e !! i with
  | None => UB
  | Some l => Ok (mkAdj (jPts e) (jIds e) (<[i := set_edge l j cost]> (jAdj e)) (jMap e) (jStart e) (jGoal e))
  end.
(** h:213-252 setCost with a cost, 207-211 without. *)
Definition setCost (e : adjenv) (c1 c2 : C) (cost : Z) : jres adjenv :=
  match jIds e !! c1, jIds e !! c2 with
  | Some i, Some j => do e <- set_dir e i j cost; set_dir e j i cost
  | _, _ => UB                                            (* i1->second with i1 == end() *)
  end.
Definition setCostH (e : adjenv) (c1 c2 : C) : jres adjenv := setCost e c1 c2 (dist c1 c2).

(** h:254-268 setStartState, setGoalState. *)
Definition setStartState (e : adjenv) (c : C) : jres adjenv :=
  match jIds e !! c with
  | Some i => Ok (mkAdj (jPts e) (jIds e) (jAdj e) (jMap e) (Some i) (jGoal e))
  | None => UB
  end.
Definition setGoalState (e : adjenv) (c : C) : jres adjenv :=
  match jIds e !! c with
  | Some i => Ok (mkAdj (jPts e) (jIds e) (jAdj e) (jMap e) (jStart e) (Some i))
  | None => UB
  end.

(** h:278-294 GetFromToHeuristic, GetGoalHeuristic, GetStartHeuristic. *)
Definition GetFromToHeuristic (e : adjenv) (i j : nat) : jres Z :=
  match jPts e !! i, jPts e !! j with Some a, Some b => Ok (dist a b) | _, _ => UB end.
Definition GetGoalHeuristic (e : adjenv) (i : nat) : jres Z :=
  match jGoal e with Some g => GetFromToHeuristic e i g | None => UB end.
Definition GetStartHeuristic (e : adjenv) (i : nat) : jres Z :=
  match jStart e with Some s => GetFromToHeuristic e s i | None => UB end.

(** h:310-314 SizeofCreatedEnv. *)
Definition SizeofCreatedEnv (e : adjenv) : nat := length (jPts e).
(** h:350-366 GetSuccs; 368-372 GetPreds and 344-348 SetAllPreds always throw. *)
Definition GetSuccs (e : adjenv) (i : nat) : jres (list (nat * Z)) :=
  if bool_decide (jGoal e = Some i) then Ok []
  else match jAdj e !! i with Some l => Ok l | None => UB end.
Definition GetPreds (e : adjenv) (i : nat) : jres (list (nat * Z)) := Exn tt.
(** h:326-342 SetAllActionsandAllOutcomes: the action index is never incremented; probability 1.0 is the unit 1. *)
Definition SetAllActions (e : adjenv) (i : nat) : jres (list maction) :=
  if bool_decide (jGoal e = Some i) then Ok []
  else match jAdj e !! i with
       | Some l => Ok ((fun a => mkAction 0 [(Z.of_nat a.1, a.2, 1)]) <$> l)
       | None => UB
       end.

(** What the planner sees. (Outside the range of the points the functions of the code are undefined; the planner asks only
    about the start, the goal and the neighbours it was told of.) *)
Definition get {A} (d : A) (r : jres A) : A := match r with Ok a => a | _ => d end.
Definition planner_view (e : adjenv) : aenv :=
  mkEnv (jMap e) (fun i => get [] (GetSuccs e i)) (fun _ => []) (fun i => get 0 (GetGoalHeuristic e i)) (fun i => get 0 (GetStartHeuristic e i)).

(** h:374-393 findOptimalPath (set_initialsolution_eps(1.0); the other parameters are the defaults of new_ara).
    Result: the returned points and *solution_cost. The planner object is local. *)
Definition findOptimalPath (fuel : nat) (clk : nat -> bool) (e : adjenv) : ares (list C * Z) :=
  match jStart e, jGoal e with
  | Some s, Some g =>
    let v := planner_view e in
    do p <- set_start v (new_ara true) s;
    do p <- set_goal v p g;
    do r <- replan fuel v clk p (mkParams 1 (aFinal p) (aDec p) false);
    match mapM (fun i => jPts e !! i) r.1.1.2 with
    | Some l => Ok (l, r.1.2)
    | None => UB
    end
  | _, _ => UB                                            (* id -1: out-of-range access in GetState *)
  end.
End adj.
