(** What C59-C62 mean: properties of LazyARAPlanner objects. [route] and [inflate] are those of AraSpec. *)
From Verif Require Import Base KeyModel HeapModel AraModel AraSpec LazyModel.
From Coq Require Import QArith.
Local Open Scope Z_scope.

(** The edges the environment lists, with a cost that is the true cost (b = true) or an estimate: a planner that searches forward looks at
    successor lists, one that searches backward at predecessor lists. *)
Definition listed (e : lenv) (fwd : bool) (u v : nat) (w : Z) (b : bool) : Prop :=
  if fwd then (v, w, b) ∈ lSuccs e u else (u, w, b) ∈ lPreds e v.
(** The real edges: those listed with their true cost, and those listed with an estimate and for which GetTrueCost is positive. *)
Definition real_edge (e : lenv) (fwd : bool) (u v : nat) (w : Z) : Prop :=
  listed e fwd u v w true \/ exists c, listed e fwd u v c false /\ lTrueCost e u v = w /\ 0 < w.
(** The least cost listed for a pair of states. *)
Definition least (e : lenv) (fwd : bool) (u v : nat) (w : Z) : Prop :=
  (exists b, listed e fwd u v w b) /\ forall w' b, listed e fwd u v w' b -> w <= w'.

(** Environments considered: N states (fewer than a CHeap holds), edges lead to existing states, costs in 0..INFINITECOST, those given as
    true costs positive (as GetTrueCost's are), heuristics >= 0 and small enough for (int)(eps * h) not to overflow for eps in 0..E. *)
Record good_lenv (fwd : bool) (E : Q) (N : nat) (e : lenv) : Prop := {
  gl_size : Z.of_nat N <= 19999998;
  gl_edge : forall s t c b, (t, c, b) ∈ lnbrs e fwd s -> (t < N)%nat /\ 0 <= c <= INFINITECOST /\ (b = true -> 0 < c);
  gl_true : forall s t, ltcost e fwd s t <= INFINITECOST;
  gl_heur : forall s, 0 <= lheur e fwd s;
  gl_heurE : forall s, (E * inject_Z (lheur e fwd s) < inject_Z 2147483648)%Q
}.
(** The heuristic is 0 at the target of the search. *)
Definition zero_at (e : lenv) (fwd : bool) (goal : nat) : Prop := lheur e fwd goal = 0.
(** Estimates are lower bounds of the true costs, and the heuristic of the search is consistent with the true costs. *)
Record informed (fwd : bool) (e : lenv) : Prop := {
  in_est : forall u v c, listed e fwd u v c false -> 0 < lTrueCost e u v -> c <= lTrueCost e u v;
  in_cons : forall u v w, real_edge e fwd u v w -> if fwd then lGoalH e u <= w + lGoalH e v else lStartH e v <= w + lStartH e u
}.
(** Parameters: eps values in 0..E with E below INFINITECOST, and at most k steps from the initial to the final eps. *)
Definition good_lparams (E : Q) (k : nat) (q : lparams) : Prop :=
  (0 <= xInit q <= E /\ 0 <= xFinal q <= E /\ 0 < xDec q /\ E < inject_Z INFINITECOST /\
   xInit q - xFinal q <= inject_Z (Z.of_nat k) * xDec q)%Q /\ Z.of_nat k < 65000.
(** A clock: once the time is over it stays over. *)
Definition clock_ok (clk : nat -> bool) : Prop := forall i j, (i <= j)%nat -> clk i = false -> clk j = false.
(** The search is never stopped by the clock. *)
Definition no_timeout (q : lparams) (clk : nat -> bool) : Prop := xFirst q = true \/ forall i, clk i = true.

(** Planner objects a user can bring about, with the number of completed searches.  Between the calls the environment may change at will. *)
Inductive lreach (fwd : bool) : nat -> lazy -> Prop :=
| lreach_new : lreach fwd 0 (new_lazy fwd)
| lreach_goal n p s : lreach fwd n p -> lreach fwd n (lset_goal p s)
| lreach_start n p s : lreach fwd n p -> lreach fwd n (lset_start p s)
| lreach_mode n p b : lreach fwd n p -> lreach fwd n (lset_mode p b)
| lreach_eps n p x : lreach fwd n p -> lreach fwd n (lset_eps p x)
| lreach_free n p p' : lreach fwd n p -> lfree p = Ok p' -> lreach fwd n p'
| lreach_replan n p E N k fuel e clk q r p' : lreach fwd n p -> good_lenv fwd E N e -> good_lparams E k q -> clock_ok clk ->
    (forall s, zStart p = Some s -> (s < N)%nat) -> (forall s, zGoal p = Some s -> (s < N)%nat) ->
    (forall s, (if fwd then zGoal p else zStart p) = Some s -> zero_at e fwd s) ->
    lreplan fuel e clk p q = Ok (r, p') -> lreach fwd (S n) p'.

(** Start and goal as the user set them. *)
Definition luser_start (p : lazy) : option nat := if zFwd p then zStart p else zGoal p.
Definition luser_goal (p : lazy) : option nat := if zFwd p then zGoal p else zStart p.

(** A call of replan on an object that has searched [n] times before, in an environment as above, with start [s] and goal [t] set. *)
Record lcall (fwd : bool) (E : Q) (N k n : nat) (p : lazy) (e : lenv) (clk : nat -> bool) (q : lparams) (s t : nat) : Prop := {
  lc_reach : lreach fwd n p;
  lc_count : Z.of_nat n < 65534;
  lc_env : good_lenv fwd E N e;
  lc_par : good_lparams E k q;
  lc_clk : clock_ok clk;
  lc_start : luser_start p = Some s;
  lc_goal : luser_goal p = Some t;
  lc_sN : (s < N)%nat;
  lc_tN : (t < N)%nat;
  lc_zero : zero_at e fwd t
}.
(** The path a planner returns leads from the start to the goal if it searches forward, and from the goal to the start if it searches
    backward. *)
Definition from_ (fwd : bool) (s t : nat) : nat := if fwd then s else t.
Definition to_ (fwd : bool) (s t : nat) : nat := if fwd then t else s.
(** All costs are given as true costs. *)
Definition all_true (e : lenv) (fwd : bool) : Prop := forall u v w b, listed e fwd u v w b -> b = true.
