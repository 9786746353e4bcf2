(** What C47-C50 mean: properties of MHAPlanner objects, for every sequence of calls. [route] and [inflate] are those of AraSpec. *)
From Verif Require Import Base KeyModel HeapModel AraModel AraSpec MhaModel.
From Coq Require Import QArith Qround.
Local Open Scope Z_scope.

(** The edges of the environment's graph. *)
Definition medge (e : menv) : nat -> nat -> Z -> Prop := gedge true (meSuccs e).

(** Environments considered: fewer states than a CHeap holds, edges lead to existing states with costs in 0..INFINITECOST, the n+1 heuristics are
    >= 0, and INFINITECOST + eps * h fits an int. *)
Record good_menv (n : nat) (eps : Q) (e : menv) : Prop := {
  gm_size : Z.of_nat (meSize e) <= 19999998;
  gm_edge : forall s t c, (t, c) ∈ meSuccs e s -> (t < meSize e)%nat /\ 0 <= c <= INFINITECOST;
  gm_heur : forall i s, (i <= n)%nat -> 0 <= meH e i s;
  gm_fits : forall i s, (i <= n)%nat -> (eps * inject_Z (meH e i s) < inject_Z 1147483648)%Q
}.
(** The anchor heuristic is consistent and 0 at the goal. *)
Definition consistent (e : menv) (goal : nat) : Prop :=
  meH e 0 goal = 0 /\ forall s t c, (t, c) ∈ meSuccs e s -> meH e 0 s <= c + meH e 0 t.
(** No priority can reach INFINITECOST. *)
Definition small (n : nat) (eps : Q) (e : menv) : Prop := exists M H,
  (forall s t c, (t, c) ∈ meSuccs e s -> c <= M) /\ (forall i s, (i <= n)%nat -> meH e i s <= H) /\ 0 <= M /\ 0 <= H /\
  (inject_Z (2 * Z.of_nat (meSize e) * M) + eps * inject_Z H < inject_Z INFINITECOST)%Q.

(** Planner objects a user can bring about, with the number of states of the environment at that moment.  Between the calls the environment
    (edges, costs, heuristics) may change at will, except that states do not disappear. *)
Inductive mreach (n : nat) : nat -> mha -> Prop :=
| mreach_new k : mreach n k (new_mha n)
| mreach_grow k k' p : mreach n k p -> (k <= k')%nat -> mreach n k' p
| mreach_start e p s p' : mreach n (meSize e) p -> mset_start e p s = Ok p' -> mreach n (meSize e) p'
| mreach_goal e p s p' : mreach n (meSize e) p -> mset_goal e p s = Ok p' -> mreach n (meSize e) p'
| mreach_eps2 k p w : mreach n k p -> mreach n k (mset_eps2 p w)
| mreach_max k p x : mreach n k p -> mreach n k (mset_max p x)
| mreach_replan e clk p par r p' : mreach n (meSize e) p -> good_menv n (qInit par) e ->
    mreplan e clk p par = Ok (r, p') -> mreach n (meSize e) p'.

(** Neither the clock nor the expansion limit stops the search. *)
Definition unlimited (p : mha) (par : mparams) (clk : nat -> bool) : Prop :=
  qFirst par = true \/ ((forall i, clk i = true) \/ (qTime par <= 0)%Q) /\ hMax p <= 0.
