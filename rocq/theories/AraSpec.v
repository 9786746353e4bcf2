(** What C20-C25 mean.  A planner object lives in a world: the graph the environment describes, the environment as the
    planner sees it at the moment, and the planner object. *)
From Verif Require Import Base KeyModel HeapModel ListModel AraModel.
From Coq Require Import QArith Qround.
Local Open Scope Z_scope.

(** [route W edge l a b C]: l is a sequence of states from a to b along edges; C is the sum of the weights [W c] of the edge
    costs c ([W] = identity for the real cost). *)
Inductive route (W : Z -> Z) (edge : nat -> nat -> Z -> Prop) : list nat -> nat -> nat -> Z -> Prop :=
| route_one a : route W edge [a] a a 0
| route_cons a b l z c C : edge a b c -> route W edge (b :: l) b z C -> route W edge (a :: b :: l) a z (W c + C).

(** Edges, given the lists that the search direction uses: forward, G s are the successors of s; backward, the predecessors. *)
Definition gedge (fwd : bool) (G : nat -> list (nat * Z)) (u v : nat) (c : Z) : Prop :=
  if fwd then (v, c) ∈ G u else (u, c) ∈ G v.
(** The edges as the environment currently lists them. *)
Definition eedge (fwd : bool) (e : aenv) : nat -> nat -> Z -> Prop := gedge fwd (nbrs e fwd).

(** Start and goal as the user set them. *)
Definition user_start (p : ara) : option nat := if aFwd p then aStart p else aGoal p.
Definition user_goal (p : ara) : option nat := if aFwd p then aGoal p else aStart p.

(** Cost of an edge inflated by eps, rounded up. *)
Definition inflate (eps : Q) (c : Z) : Z := Z.max c (Qceiling (eps * inject_Z c)).

Record world := mkWorld { wG : nat -> list (nat * Z); wE : aenv; wP : ara }.

Section spec.
Context (fwd con : bool) (E : Q).

Definition heur (e : aenv) (s : nat) : Z := if fwd then eGoalH e s else eStartH e s.

(** Environments considered: not more states than a CList holds, edges between existing states with costs in
    1..INFINITECOST, heuristics >= 0 and small enough for (int)(eps * h) not to overflow for the eps values used (0..E).
    Edge lists may be queried in the direction of the search only. *)
Record good_env (G : nat -> list (nat * Z)) (e : aenv) : Prop := {
  ge_size : Z.of_nat (eSize e) <= 5000000;
  ge_edge : forall s t c, (t, c) ∈ G s -> (t < eSize e)%nat /\ 0 < c <= INFINITECOST;
  ge_heur : forall s, 0 <= heur e s;
  ge_heurE : forall s, (E * inject_Z (heur e s) < inject_Z 2147483648)%Q
}.
(** The environment lists the edges of graph G, except perhaps those of the search goal (SBPL environments give the goal no
    successors). When [con], the heuristic is consistent and 0 at the search goal. *)
Record sees (G : nat -> list (nat * Z)) (e : aenv) (goal : option nat) : Prop := {
  se_edge : forall s, goal <> Some s -> nbrs e fwd s = G s;
  se_zero : con = true -> forall s, goal = Some s -> heur e s = 0;
  se_cons : con = true -> forall s t c, (t, c) ∈ G s -> heur e s <= c + heur e t
}.
Definition good_params (q : params) : Prop :=
  (0 <= pInit q <= E /\ 0 <= pFinal q <= E /\ 0 <= pDec q)%Q.

(** Worlds a user can bring about.  The environment may change whenever the planner is told: arbitrarily with costs_changed
    or the "free memory" call; with set_goal / set_start its goal may change, i.e. the edges stay, and the
    heuristic changes only together with the search goal. *)
Inductive reach : world -> Prop :=
| reach_new G e : good_env G e -> sees G e None -> (5 <= E < inject_Z INFINITECOST)%Q -> reach (mkWorld G e (new_ara fwd))
| reach_goal G e e' p id p' : reach (mkWorld G e p) -> good_env G e' -> eSize e' = eSize e -> set_goal e' p id = Ok p' ->
    sees G e' (aGoal p') -> (aGoal p' <> aGoal p \/ forall s, heur e' s = heur e s) -> reach (mkWorld G e' p')
| reach_start G e e' p id p' : reach (mkWorld G e p) -> good_env G e' -> eSize e' = eSize e -> set_start e' p id = Ok p' ->
    sees G e' (aGoal p') -> (aGoal p' <> aGoal p \/ forall s, heur e' s = heur e s) -> reach (mkWorld G e' p')
| reach_costs G e G' e' p : reach (mkWorld G e p) -> good_env G' e' -> (eSize e <= eSize e')%nat -> sees G' e' (aGoal p) ->
    reach (mkWorld G' e' (costs_changed p))
| reach_scratch G e p : reach (mkWorld G e p) -> reach (mkWorld G e (force_planning_from_scratch p))
| reach_free G e G' e' p p' : reach (mkWorld G e p) -> good_env G' e' -> sees G' e' (aGoal p) ->
    force_planning_from_scratch_and_free_memory e' p = Ok p' -> reach (mkWorld G' e' p')
| reach_params G e p q : reach (mkWorld G e p) -> good_params q -> reach (mkWorld G e (set_params p q))
| reach_replan G e p fuel clk r p' : reach (mkWorld G e p) -> Search fuel e clk p = Ok (r, p') -> reach (mkWorld G e p').
End spec.

(** The loop of ImprovePath again, keeping a log of the states it expands (C23_log_faithful: without the log it is the same). *)
Fixpoint improve_log (e : aenv) (fwd : bool) (fuel : nat) (clk : nat -> bool) (eps : Q) (iter call : Z) (goal : nat) (c : core) (nclk : nat)
  (log : list nat) : ares (core * nat * list nat) :=
  match fuel with
  | O => OOF
  | S fuel =>
    do ga <- rdst c goal;
    do minkey <- lift XHeap (getminkeyheap ckeyops (cOpen c));
    if negb (emptyheap (cOpen c)) && (k0 minkey <? INFINITECOST) && key_gt (mkKey (sG ga) 0) minkey then
      if clk nclk then
        do r <- lift XHeap (deleteminheap ckeyops (cOpen c));
        let s := r.1 in
        let c := mkCore (cSt c) r.2 (cInc c) in
        do a <- rdst c s;
        let c := set_st c s (mkA (sG a) (sG a) iter (sCall a) (sPred a) (sNext a) (sCostNext a) (sH a)) in
        do c <- relax_all e fwd eps iter call s (nbrs e fwd s) c;
        improve_log e fwd fuel clk eps iter call goal c (S nclk) (log ++ [s])
      else Ok (c, S nclk, log)
    else Ok (c, nclk, log)
  end.

(** The loop heads of one run of Search started with planner p0: planner and number of clock questions so far. *)
Inductive at_loop (e : aenv) (clk : nat -> bool) (p0 : ara) : ara -> nat -> Prop :=
| al_start p : (let p := if aReeval p0 then with_core p0 (Reevaluatehvals e (aFwd p0) (aC p0)) else p0 in
                if aReinit p then ReInitializeSearchStateSpace e p else Ok p) = Ok p -> at_loop e clk p0 p 0
| al_next p n p1 p2 r c n' : at_loop e clk p0 p n -> clk n = true ->
    new_iteration e (eps_step p (aFirst p)) = Ok p1 -> new_priorities p1 = Ok p2 ->
    ImprovePath e (aFwd p2) clk (aEps p2) (aIter p2) (aCall p2) (aGoal p2) (aC p2) (S n) = Ok (r, c, n') ->
    at_loop e clk p0 (if r =? 1 then with_sat (with_core p2 c) (aEps p2) else with_core p2 c) n'.

(** g + h of a state. *)
Definition fplus (p : ara) (s : nat) (v : Z) : Prop := exists a, cSt (aC p) !! s = Some a /\ v = sG a + sH a.
(** The state in the last slot of OPEN is not the only one with the least g + h on OPEN and INCONS. *)
Definition last_slot_dominated (p : ara) : Prop :=
  forall u k v, (1 <= cur (cOpen (aC p)))%nat -> arr (cOpen (aC p)) !! cur (cOpen (aC p)) = Some (u, k) -> fplus p u v ->
  exists s v', fplus p s v' /\ v' <= v /\
    (list_in (cInc (aC p)) s = true \/ exists j k', (1 <= j < cur (cOpen (aC p)))%nat /\ arr (cOpen (aC p)) !! j = Some (s, k')).

(** What a user does with one planner object and one environment. *)
Inductive act := ASetStart (id : nat) | ASetGoal (id : nat) | AScratch | ACosts | AReplan (q : params) (clk : nat -> bool).
(** Playing a list of calls; the results of the replan calls are collected. *)
Fixpoint play (e : aenv) (fuel : nat) (acts : list act) (p : ara) : ares (list (bool * list nat * Z) * ara) :=
  match acts with
  | [] => Ok ([], p)
  | ASetStart id :: acts => do p <- set_start e p id; play e fuel acts p
  | ASetGoal id :: acts => do p <- set_goal e p id; play e fuel acts p
  | AScratch :: acts => play e fuel acts (force_planning_from_scratch p)
  | ACosts :: acts => play e fuel acts (costs_changed p)
  | AReplan q clk :: acts =>
      do r <- replan fuel e clk p q;
      do r2 <- play e fuel acts r.2;
      Ok (r.1 :: r2.1, r2.2)
  end.
(** Calls a user may make: existing states, eps parameters in range, at least one question to the clock answered "time left",
    once the time is over it stays over, and start and goal set before the first replan. *)
Definition good_act (E : Q) (e : aenv) (k : nat) (a : act) : Prop :=
  match a with
  | ASetStart id | ASetGoal id => (id < eSize e)%nat
  | AScratch | ACosts => True
  | AReplan q clk => good_params E q /\ clk 0%nat = true /\ (forall i j, (i <= j)%nat -> clk i = false -> clk j = false) /\
      (0 < pDec q)%Q /\ (E <= inject_Z (Z.of_nat k) * pDec q)%Q
  end.
Definition replans (acts : list act) : nat := length (filter (fun a => match a with AReplan _ _ => true | _ => false end = true) acts).
