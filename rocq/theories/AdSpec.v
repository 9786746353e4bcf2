(** What C51-C55 mean.  Worlds, routes, good environments and inflated costs are those of AraSpec. *)
From Verif Require Import Base KeyModel HeapModel ListModel AraModel AraSpec AdModel.
From Coq Require Import QArith Qround.
Local Open Scope Z_scope.

(** The search has a record of state t from the current search episode. *)
Definition known (p : ara) (t : nat) : Prop := exists a, cSt (aC p) !! t = Some a /\ sCall a = aCall p.

Section spec.
Context (fwd abs : bool) (E : Q).

(** The environment lists the edges of graph G in both directions: in the direction of the search for every state (if [abs], perhaps not
    for the search goal: GetSuccs of SBPL environments gives the goal no successors), in the other direction for every state but the search
    start.  The heuristic is consistent and 0 at the search goal. *)
Record dsees (G : nat -> list (nat * Z)) (e : aenv) (start goal : option nat) : Prop := {
  ds_next : forall s, (abs = true -> goal <> Some s) -> nbrs e fwd s = G s;
  ds_prev : forall r, start = Some r -> forall t p w, t <> r -> (p, w) ∈ nbrs e (negb fwd) t <-> (t, w) ∈ G p;
  ds_ids : forall s t w, (t, w) ∈ G s -> (s < eSize e)%nat;
  ds_zero : forall s, goal = Some s -> heur fwd e s = 0;
  ds_cons : forall s t w, (t, w) ∈ G s -> heur fwd e s <= w + heur fwd e t
}.
Definition good_params1 (q : params) : Prop := (1 <= pInit q <= E /\ 1 <= pFinal q <= E /\ 0 <= pDec q)%Q.

(** Cost changes AD* repairs: every edge whose cost changes, appears or disappears leads (in search direction) to a listed state, and an edge
    appears only between states that had an edge before or into a state the search already knows.  (C55_new_edge_refuted: otherwise
    the edge may be ignored.) *)
Definition repairable (G G' : nat -> list (nat * Z)) (p : ara) (l : list nat) : Prop :=
  (forall s t w, t ∉ l -> (t, w) ∈ G' s <-> (t, w) ∈ G s) /\
  (forall s t w, (t, w) ∈ G' s -> (exists w', (t, w') ∈ G s) \/ known p t).

(** Worlds a user can bring about. *)
Inductive dreach : world -> Prop :=
| dr_new G e : good_env fwd E G e -> dsees G e None None -> (10 <= E < inject_Z INFINITECOST)%Q -> dreach (mkWorld G e (new_ad fwd))
| dr_goal G e e' p id p' : dreach (mkWorld G e p) -> good_env fwd E G e' -> eSize e' = eSize e -> ad_set_goal e' p id = Ok p' ->
    dsees G e' (aStart p') (aGoal p') -> (aGoal p' <> aGoal p \/ forall s, heur fwd e' s = heur fwd e s) ->
    (abs = true -> aGoal p' = aGoal p \/ aReinit p = true) -> dreach (mkWorld G e' p')
| dr_start G e e' p id p' : dreach (mkWorld G e p) -> good_env fwd E G e' -> eSize e' = eSize e -> ad_set_start e' p id = Ok p' ->
    dsees G e' (aStart p') (aGoal p') -> (aGoal p' <> aGoal p \/ forall s, heur fwd e' s = heur fwd e s) ->
    (abs = true -> aGoal p' = aGoal p \/ aReinit p = true) -> dreach (mkWorld G e' p')
| dr_costs G e G' e' p l p' : dreach (mkWorld G e p) -> good_env fwd E G' e' -> (eSize e <= eSize e')%nat -> dsees G' e' (aStart p) (aGoal p) ->
    Forall (fun t => (t < eSize e')%nat) l -> ad_costs_changed e' p l = Ok p' ->
    (aReinit p' = true \/ aIter p = 0 \/
     repairable G G' p l /\ ((forall s, heur fwd e' s = heur fwd e s) \/ (ad_solution_eps p' == inject_Z INFINITECOST)%Q)) ->
    dreach (mkWorld G' e' p')
| dr_scratch G e p : dreach (mkWorld G e p) -> dreach (mkWorld G e (ad_force p))
| dr_free G e G' e' p p' : dreach (mkWorld G e p) -> good_env fwd E G' e' -> dsees G' e' (aStart p) (aGoal p) ->
    ad_force_free e' p = Ok p' -> dreach (mkWorld G' e' p')
| dr_params G e p q : dreach (mkWorld G e p) -> good_params1 q -> dreach (mkWorld G e (set_params p q))
| dr_replan G e p fuel clk r p' : dreach (mkWorld G e p) -> ad_Search fuel e clk p = Ok (r, p') -> dreach (mkWorld G e p').
End spec.

(** The loop of ComputePath again, keeping a log of the states it expands (C54_log_faithful: without the log it is the same). *)
Fixpoint ad_log (e : aenv) (fwd : bool) (fuel : nat) (clk : nat -> bool) (eps : Q) (iter call : Z) (goal : nat) (c : core) (nclk : nat)
  (log : list nat) : dres (core * nat * list nat) :=
  match fuel with
  | O => OOF
  | S fuel =>
    do ga <- dlift DBadState (rdst c goal);
    do minkey <- dlift DHeap (getminkeyheap ckeyops (cOpen c));
    if negb (emptyheap (cOpen c)) && (k0 minkey <? INFINITECOST) && goal_open eps ga minkey then
      if clk nclk then
        do r <- dlift DHeap (deleteminheap ckeyops (cOpen c));
        do c <- ad_expand e fwd eps iter call r.1 (mkCore (cSt c) r.2 (cInc c));
        ad_log e fwd fuel clk eps iter call goal c (S nclk) (log ++ [r.1])
      else Ok (c, S nclk, log)
    else Ok (c, nclk, log)
  end.

(** The heads of the main loop of one run of Search started with planner p0: planner and number of clock questions so far. *)
Inductive at_dloop (e : aenv) (clk : nat -> bool) (p0 : ara) : ara -> nat -> Prop :=
| ad_start p : (let p := if aReeval p0 then with_core p0 (Reevaluatehvals e (aFwd p0) (aC p0)) else p0 in
                if aReinit p then ad_reinit e p else Ok p) = Ok p -> at_dloop e clk p0 p 0
| ad_next p n p1 p2 r c n' : at_dloop e clk p0 p n -> clk n = true ->
    ad_rebuild (ad_eps_step (ad_first_iter p) (aFirst p)) = Ok p1 -> ad_reprio p1 = Ok p2 ->
    ComputePath e (aFwd p2) clk (aEps p2) (aIter p2) (aCall p2) (aGoal p2) (aC p2) (S n) = Ok (r, c, n') ->
    at_dloop e clk p0 (if r =? 1 then with_sat (with_core p2 c) (aEps p2) else with_core p2 c) n'.
