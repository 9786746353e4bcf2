(** Specification vocabulary for the value-iteration planner (data types of the model only). *)
From Verif Require Import Base MdpModel MdpSpec EvalModel EvalSpec ViModel.
Local Open Scope Z_scope.

(** Every action of the environment is a distribution over outcomes with costs at least [c]. *)
Definition env_ok (c : Z) (env : vienv) : Prop := forall x a, a ∈ ve_acts env x -> outs_ok c (ea_outs a).

(** A strategy picks the index of an action, looking at everything that happened so far (latest state first). *)
Definition strategy := list Z -> nat.
(** Expected cost of the first n steps of a strategy from state [x], ending at the goal. Where the strategy
    has no action to pick (a dead end, or an index out of range) it waits, at cost 1 per step: a strategy
    that may be stuck forever therefore has no finite expected cost. *)
Fixpoint strategy_cost (env : vienv) (goal : Z) (s : strategy) (n : nat) (hist : list Z) (x : Z) : Q :=
  match n with
  | O => 0%Q
  | S n => if x =? goal then 0%Q
           else match ve_acts env x !! s (x :: hist) with
                | Some a => expect (ea_outs a) (fun c y => (inject_Z c + strategy_cost env goal s n (x :: hist) y)%Q)
                | None => (1 + strategy_cost env goal s n (x :: hist) x)%Q
                end
  end.
(** [v] is at most the expected cost of every strategy from [x] (the limit of the n-step costs). *)
Definition below_optimum (env : vienv) (goal : Z) (x : Z) (v : Q) : Prop :=
  forall (s : strategy) (eps : Q), (0 < eps)%Q -> exists n, (v <= strategy_cost env goal s n [] x + eps)%Q.
(** The heuristic is nonnegative and never overestimates. *)
Definition admissible (env : vienv) (goal : Z) : Prop :=
  forall x, 0 <= ve_h env x /\ below_optimum env goal x (inject_Z (ve_h env x)).

(** A finite set of states that contains [start] and all successors of its members. *)
Definition closed_states (env : vienv) (start : Z) (D : list Z) : Prop :=
  start ∈ D /\ forall x a o, x ∈ D -> a ∈ ve_acts env x -> o ∈ ea_outs a -> o.1.1 ∈ D.

(** A history of earlier replan calls: start states and clocks (the goal and the environment stay). *)
Inductive vi_history (env : vienv) (goal : Z) : vist -> Prop :=
| vh_new : forall d b, vi_history env goal (mkVI ∅ 0 d b)      (* the statics may hold anything *)
| vh_call : forall st fuel efuel start clock st' r, vi_history env goal st ->
    vi_replan fuel efuel env start goal clock st = Ok (st', r) -> vi_history env goal st'
| vh_static : forall st d b, vi_history env goal st ->         (* another planner ran meanwhile *)
    vi_history env goal (mkVI (vi_mdp st) (vi_iter st) d b).

(** The heuristic is consistent: never above the cost of one step plus the heuristic after it. *)
Definition consistent (env : vienv) (goal : Z) : Prop := forall x a, x <> goal -> a ∈ ve_acts env x ->
  (inject_Z (ve_h env x) <= expect (ea_outs a) (fun c y => inject_Z c + inject_Z (ve_h env y)))%Q.
(** One possible step of the environment. *)
Definition env_step (env : vienv) (x y : Z) : Prop := exists a o, a ∈ ve_acts env x /\ o ∈ ea_outs a /\ o.1.1 = y.
