(** Specification vocabulary for EvaluatePolicy and the value-iteration planner (data types only). *)
From Verif Require Import Base MdpModel MdpSpec EvalModel.
Local Open Scope Z_scope.

(** Sum over the outcomes of an action of probability times [f cost successor]. *)
Fixpoint expect (outs : list (Z * Z * Q)) (f : Z -> Z -> Q) : Q :=
  match outs with
  | [] => 0%Q
  | o :: outs => (o.2 * f (o.1.2) (o.1.1) + expect outs f)%Q
  end.

(** A probability distribution over outcomes whose costs are at least [c]. *)
Definition outs_ok (c : Z) (outs : list (Z * Z * Q)) : Prop :=
  (forall o, o ∈ outs -> (0 < o.2)%Q /\ c <= o.1.2) /\ (expect outs (fun _ _ => 1) == 1)%Q.

(** The action the policy takes in the state with this id. *)
Definition policy_at (arr : list est) (id : Z) (a : eact) : Prop :=
  exists s, s ∈ arr /\ es_id s = id /\ es_acts s = [a].

(** A policy in the form the code expects: distinct ids, at most one action per state, the outcomes of
    each action a distribution over states of the array with costs at least [c]. *)
Definition wf_policy (c : Z) (arr : list est) : Prop :=
  NoDup (es_id <$> arr) /\
  forall s, s ∈ arr -> es_acts s = [] \/
    exists a, es_acts s = [a] /\ outs_ok c (ea_outs a) /\ forall o, o ∈ ea_outs a -> o.1.1 ∈ es_id <$> arr.

(** Every state except the goal has an action. *)
Definition full_policy (arr : list est) (goal : Z) : Prop :=
  forall s, s ∈ arr -> es_id s <> goal -> es_acts s <> [].

(** Expected cost of the first n steps from state [id] (the process ends at the goal). *)
Fixpoint policy_cost (arr : list est) (goal : Z) (n : nat) (id : Z) : Q :=
  match n with
  | O => 0%Q
  | S n => if id =? goal then 0%Q
           else match list_find (fun s => es_id s = id) arr with
                | Some (_, s) => match es_acts s with
                                 | a :: _ => expect (ea_outs a) (fun c id' => (inject_Z c + policy_cost arr goal n id')%Q)
                                 | [] => 0%Q
                                 end
                | None => 0%Q
                end
  end.

(** One step of the policy with positive probability, between ids. *)
Definition id_step (arr : list est) (x y : Z) : Prop :=
  exists a o, policy_at arr x a /\ o ∈ ea_outs a /\ o.1.1 = y.

(** Number of outcomes that lead to [id]. *)
Definition outs_to (id : Z) (outs : list (Z * Z * Q)) : Z := Z.of_nat (length (filter (fun o => o.1.1 = id) outs)).
Definition act_outs (s : est) : list (Z * Z * Q) := match es_acts s with [] => [] | a :: _ => ea_outs a end.
Fixpoint indegree (arr : list est) (id : Z) : Z :=
  match arr with [] => 0 | s :: arr => outs_to id (act_outs s) + indegree arr id end.
(** A state reached by n > 0 edges merges n - 1 times; the goal is not counted. *)
Definition merge_of (arr : list est) (goal : Z) (s : est) : Z :=
  if es_id s =? goal then 0 else Z.max 0 (indegree arr (es_id s) - 1).
Fixpoint total_merges (arr : list est) (goal : Z) (ss : list est) : Z :=
  match ss with [] => 0 | s :: ss => merge_of arr goal s + total_merges arr goal ss end.

