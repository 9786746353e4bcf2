(** What C45 and C46 mean: an undirected graph whose nodes are labelled with coordinates, and the calls of a user. *)
From Verif Require Import Base AdjModel.
Local Open Scope Z_scope.

Section spec.
Context {C : Type} `{Countable C}.

(** The roadmap: its points in the order they were added, the costs of its edges, start and goal by their position. *)
Record roadmap := mkRoad { rPts : list C; rCost : C -> C -> option Z; rStart : option nat; rGoal : option nat }.
Definition no_roadmap : roadmap := mkRoad [] (fun _ _ => None) None None.

Inductive call := Add (c : C) | Cost (a b : C) (k : Z) | RemoveLast (n : nat) | Start (c : C) | Goal (c : C).

(** What the calls should do, and when they are allowed: points are added once, costs are set between different existing
    points, not more points are removed than there are, start and goal are existing points. *)
Inductive does : roadmap -> call -> roadmap -> Prop :=
| does_add g c : c ∉ rPts g -> does g (Add c) (mkRoad (rPts g ++ [c]) (rCost g) (rStart g) (rGoal g))
| does_cost g a b k : a ∈ rPts g -> b ∈ rPts g -> a <> b ->
    does g (Cost a b k) (mkRoad (rPts g) (fun x y => if decide ((x, y) = (a, b) \/ (x, y) = (b, a)) then Some k else rCost g x y) (rStart g) (rGoal g))
| does_remove g n l : (n <= length (rPts g))%nat -> l = take (length (rPts g) - n) (rPts g) ->
    does g (RemoveLast n) (mkRoad l (fun x y => if decide (x ∈ l /\ y ∈ l) then rCost g x y else None) (rStart g) (rGoal g))
| does_start g c i : rPts g !! i = Some c -> does g (Start c) (mkRoad (rPts g) (rCost g) (Some i) (rGoal g))
| does_goal g c i : rPts g !! i = Some c -> does g (Goal c) (mkRoad (rPts g) (rCost g) (rStart g) (Some i)).
Inductive history : list call -> roadmap -> Prop :=
| hist_new : history [] no_roadmap
| hist_call cs g c g' : history cs g -> does g c g' -> history (cs ++ [c]) g'.

(** Running the calls on the model of the class. *)
Definition perform (e : adjenv (C := C)) (c : call) : outcome unit (adjenv (C := C)) :=
  match c with
  | Add c => Ok (addPoint e c)
  | Cost a b k => setCost e a b k
  | RemoveLast n => removeLastPoints e n
  | Start c => setStartState e c
  | Goal c => setGoalState e c
  end.
Fixpoint performs (e : adjenv (C := C)) (cs : list call) : outcome unit (adjenv (C := C)) :=
  match cs with [] => Ok e | c :: cs => do e <- perform e c; performs e cs end.

(** [walk cost l a b k]: l is a sequence of points from a to b along edges, k their total cost. *)
Inductive walk (cost : C -> C -> option Z) : list C -> C -> C -> Z -> Prop :=
| walk_one a : walk cost [a] a a 0
| walk_cons a b l z c k : cost a b = Some c -> walk cost (b :: l) b z k -> walk cost (a :: b :: l) a z (c + k).
(** What findOptimalPath needs of the roadmap and of heuristicDistanceTo. *)
Record plannable (dist : C -> C -> Z) (g : roadmap) (s t : C) : Prop := {
  pl_start : exists i, rStart g = Some i /\ rPts g !! i = Some s;
  pl_goal : exists i, rGoal g = Some i /\ rPts g !! i = Some t;
  pl_cost : forall a b k, rCost g a b = Some k -> 0 < k <= INFINITECOST;
  pl_dist : forall a, a ∈ rPts g -> 0 <= dist a t < 429496729;
  pl_zero : dist t t = 0;
  pl_cons : forall a b k, rCost g a b = Some k -> dist a t <= k + dist b t
}.
End spec.
Arguments roadmap : clear implicits.
Arguments call : clear implicits.
