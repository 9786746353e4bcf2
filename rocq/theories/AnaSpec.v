(** What C67-C71 mean: properties of anaPlanner objects. [route], [gedge], [good_env] and [heur] are those of AraSpec. *)
From Verif Require Import Base KeyModel HeapModel AraModel AraSpec AnaModel.
From Coq Require Import QArith.
Local Open Scope Z_scope.

(** Ends of a route between the state where the search starts and the state it looks for: a backward search starts at the user's
    goal. *)
Definition aroute (fwd : bool) (G : nat -> list (nat * Z)) (s g : nat) (C : Z) : Prop :=
  exists l, route (fun c => c) (gedge fwd G) l (if fwd then s else g) (if fwd then g else s) C.

(** The environment lists the edges of graph G, except perhaps those of the search goal. When [con], the heuristic is admissible: at
    most the cost of any route between the state and the search goal. *)
Record asees (fwd con : bool) (G : nat -> list (nat * Z)) (e : aenv) (goal : option nat) : Prop := {
  as_edge : forall s, goal <> Some s -> nbrs e fwd s = G s;
  as_adm : con = true -> forall g s C, goal = Some g -> aroute fwd G s g C -> heur fwd e s <= C
}.

(** A planner object lives in a world: the graph, the environment as the planner sees it, and the object. *)
Record nworld := mkNW { nwG : nat -> list (nat * Z); nwE : aenv; nwP : ana }.

(** Worlds a user can bring about with n calls of replan.  When the state the search looks for changes (the goal in a forward
    search, the start in a backward search), or the heuristic does, the search has to be restarted from scratch: either the planner
    restarts anyway (before the first search, or because the other end changed too), or the user calls force_planning_from_scratch. *)
Section spec.
Context (fwd con : bool).
Inductive areach : nat -> nworld -> Prop :=
| ar_new G e : good_env fwd 1 G e -> asees fwd con G e None -> areach 0 (mkNW G e (new_ana fwd))
| ar_goal n G e e' p id p' : areach n (mkNW G e p) -> good_env fwd 1 G e' -> eSize e' = eSize e -> aset_goal e' p id = Ok p' ->
    asees fwd con G e' (nGoal p') -> nReinit p' = true \/ nGoal p' = nGoal p /\ (forall s, heur fwd e' s = heur fwd e s) ->
    areach n (mkNW G e' p')
| ar_start n G e e' p id p' : areach n (mkNW G e p) -> good_env fwd 1 G e' -> eSize e' = eSize e -> aset_start e' p id = Ok p' ->
    asees fwd con G e' (nGoal p') -> nReinit p' = true \/ nGoal p' = nGoal p /\ (forall s, heur fwd e' s = heur fwd e s) ->
    areach n (mkNW G e' p')
| ar_goal_scratch n G e e' p id p' : areach n (mkNW G e p) -> good_env fwd 1 G e' -> eSize e' = eSize e ->
    aset_goal e' p id = Ok p' -> asees fwd con G e' (nGoal p') -> areach n (mkNW G e' (ascratch p'))
| ar_start_scratch n G e e' p id p' : areach n (mkNW G e p) -> good_env fwd 1 G e' -> eSize e' = eSize e ->
    aset_start e' p id = Ok p' -> asees fwd con G e' (nGoal p') -> areach n (mkNW G e' (ascratch p'))
| ar_costs n G e G' e' p : areach n (mkNW G e p) -> good_env fwd 1 G' e' -> (eSize e <= eSize e')%nat ->
    asees fwd con G' e' (nGoal p) -> areach n (mkNW G' e' (ascratch p))
| ar_mode n G e p b : areach n (mkNW G e p) -> areach n (mkNW G e (aset_search_mode p b))
| ar_replan n G e p fuel clk r p' : areach n (mkNW G e p) -> areplan fuel e clk p = Ok (r, p') -> areach (S n) (mkNW G e p').

(** A call of replan on an object that has searched n times, start and goal set, and some time left when the search begins. *)
Record acall (n : nat) (G : nat -> list (nat * Z)) (e : aenv) (p : ana) (clk : nat -> bool) (s g : nat) : Prop := {
  ac_reach : areach n (mkNW G e p);
  ac_count : Z.of_nat n < 65535;
  ac_start : nStart p = Some s;
  ac_goal : nGoal p = Some g;
  ac_clk : clk 0%nat = true
}.
End spec.
(** Start and goal as the user set them. *)
Definition nuser_start (p : ana) : option nat := if nFwd p then nStart p else nGoal p.
Definition nuser_goal (p : ana) : option nat := if nFwd p then nGoal p else nStart p.
