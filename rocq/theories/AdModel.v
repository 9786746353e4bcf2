(** Model of class ADPlanner (Anytime D-star), /repo/src/planners/adplanner.cpp and /repo/src/include/sbpl/planners/adplanner.h,
    on top of the models of CHeap and CList.

    The data of ADPlanner has the same shape as that of ARAPlanner, so the records of AraModel are used again: [astate] is
    ADSEARCHSTATEDATA (adplanner.h:60-101), [core] and [ara] are ADSEARCHSTATESPACE (adplanner.h:106-123) with the members of ADPlanner;
    the field [aNew] holds bRebuildOpenList.  The following functions have the same text in both classes and are taken from AraModel:
    CreateState / GetState (adplanner.cpp:104-146), ComputeHeuristic (164-187), InitializeSearchStateInfo / ReInitializeSearchStateInfo
    (190-234), Reevaluatehvals (661-669).

    What is simplified (as in AraModel): ids for pointers; the environment is a record of functions without side effects on the search,
    and the size of its StateID2IndexMapping is taken as final; every evaluation of a clock condition is one question to an arbitrary oracle
    [clk]; double eps values are exact rationals; statistics, printing and #if DEBUG code are dropped; [aWrap] is a ghost that becomes true
    when a 16-bit counter overflows. *)
From Verif Require Import Base KeyModel HeapModel ListModel AngleModel AraModel.
From Coq Require Import QArith.
Local Open Scope Z_scope.

(** The exceptions thrown by the modelled code. *)
Inductive dexn := DHeap (* from CHeap *) | DList (* from CList *) | DBadState (* GetState: invalid id *) | DNoGoal (* "no goal state is set" *)
| DBestPred (* "bestpred is NULL" *) | DNonDecreasing (* "g-values are non-decreasing" *)
| DConsistent (* "consistent state is being expanded" *) | DUnder (* "underconsistent state on the path" *).
Notation dres A := (outcome dexn A).
Definition dlift {E A} (x : dexn) (r : outcome E A) : dres A :=
  match r with Ok a => Ok a | Exn _ => Exn x | UB => UB | OOF => OOF end.

(** adplanner.cpp:148-162 ComputeKey: unsigned g (or v) plus int is unsigned. *)
Definition ad_key (eps : Q) (a : astate) : ckey :=
  if sG a <=? sV a then mkKey (u32 (sG a + toint (eps * inject_Z (sH a)))) 1
  else mkKey (u32 (sV a + sH a)) 0.

(** adplanner.cpp:243-272 UpdateSetMembership. *)
Definition UpdateSetMembership (eps : Q) (iter : Z) (c : core) (s : nat) : dres core :=
  do a <- dlift DBadState (rdst c s);
  if negb (sV a =? sG a) then
    if negb (sIter a =? iter) then
      let key := ad_key eps a in
      if inheap (cOpen c) s then
        do h <- dlift DHeap (updateheap ckeyops (cOpen c) s key);
        Ok (mkCore (cSt c) h (cInc c))
      else
        do l <- (if list_in (cInc c) s then dlift DList (list_remove (cInc c) s) else Ok (cInc c));
        do h <- dlift DHeap (insertheap ckeyops (cOpen c) s key);
        Ok (mkCore (cSt c) h l)
    else if list_in (cInc c) s then Ok c
    else do l <- dlift DList (list_insert (cInc c) s); Ok (mkCore (cSt c) (cOpen c) l)
  else if inheap (cOpen c) s then
    do h <- dlift DHeap (deleteheap ckeyops (cOpen c) s);
    Ok (mkCore (cSt c) h (cInc c))
  else if list_in (cInc c) s then
    do l <- dlift DList (list_remove (cInc c) s);
    Ok (mkCore (cSt c) (cOpen c) l)
  else Ok c.

Section search.
Context (e : aenv) (fwd : bool).

(** The field that holds the best search-predecessor (bestpredstate forward, bestnextstate backward), and the assignment to g together with it
    (and with costtobestnextstate backward): adplanner.cpp:300-308, 344-346, 392-393. *)
Definition get_bp (a : astate) : option nat := if fwd then sPred a else sNext a.
Definition set_gbp (a : astate) (g : Z) (p : nat) (cost : Z) : astate :=
  if fwd then mkA (sV a) g (sIter a) (sCall a) (Some p) (sNext a) (sCostNext a) (sH a)
  else mkA (sV a) g (sIter a) (sCall a) (sPred a) (Some p) cost (sH a).

(** The search-successors (GetSuccs forward, GetPreds backward) and the search-predecessors (the other list). *)
Definition snext (s : nat) : list (nat * Z) := nbrs e fwd s.
Definition sprev (s : nat) : list (nat * Z) := nbrs e (negb fwd) s.

(** adplanner.cpp:287-310: the loop of Recomputegval; [a] is the state's own record, updated in place (so a self-loop reads its v). *)
Fixpoint recompute_loop (call : Z) (s : nat) (ps : list (nat * Z)) (c : core) : dres core :=
  match ps with
  | [] => Ok c
  | (p, cost) :: ps =>
    if (eSize e <=? p)%nat then UB                                    (* StateID2IndexMapping[p] out of range *)
    else
      match cSt c !! p with
      | None => recompute_loop call s ps c                              (* index -1: skipped *)
      | Some b =>
        do a <- dlift DBadState (rdst c s);
        let ng := u32 (sV b + cost) in
        let c := if (sCall b =? call) && (sG a >? ng) then set_st c s (set_gbp a ng p cost) else c in
        recompute_loop call s ps c
      end
  end.
(** adplanner.cpp:274-311 Recomputegval. *)
Definition Recomputegval (call : Z) (c : core) (s : nat) : dres core :=
  do a <- dlift DBadState (rdst c s);
  recompute_loop call s (sprev s) (set_st c s (mkA (sV a) INFINITECOST (sIter a) (sCall a) (sPred a) (sNext a) (sCostNext a) (sH a))).

(** adplanner.cpp:325-361 UpdatePredsofOverconsState and 375-399 UpdateSuccsofOverconsState: one round. *)
Definition over_step (eps : Q) (iter call : Z) (s : nat) (c : core) (tc : nat * Z) : dres core :=
  let t := tc.1 in
  do c <- dlift DBadState (GetState e fwd call true c t);
  do c <- dlift DBadState (refresh e fwd call true c t);
  do a <- dlift DBadState (rdst c t);
  do b <- dlift DBadState (rdst c s);
  let ng := u32 (sV b + tc.2) in
  if sG a >? ng then UpdateSetMembership eps iter (set_st c t (set_gbp a ng s tc.2)) t
  else Ok c.
(** adplanner.cpp:412-434 UpdatePredsofUnderconsState and 446-458 UpdateSuccsofUnderconsState: one round. *)
Definition under_step (eps : Q) (iter call : Z) (s : nat) (c : core) (tc : nat * Z) : dres core :=
  let t := tc.1 in
  do c <- dlift DBadState (GetState e fwd call true c t);
  do c <- dlift DBadState (refresh e fwd call true c t);
  do a <- dlift DBadState (rdst c t);
  if bool_decide (get_bp a = Some s) then
    do c <- Recomputegval call c t;
    UpdateSetMembership eps iter c t
  else Ok c.
Fixpoint steps_all (f : core -> nat * Z -> dres core) (ns : list (nat * Z)) (c : core) : dres core :=
  match ns with
  | [] => Ok c
  | tc :: ns => do c <- f c tc; steps_all f ns c
  end.

(** adplanner.cpp:532-566: the expansion of the state removed from the heap. *)
Definition ad_expand (eps : Q) (iter call : Z) (s : nat) (c : core) : dres core :=
  do a <- dlift DBadState (rdst c s);
  if sV a =? sG a then Exn DConsistent
  else if sV a >? sG a then
    let c := set_st c s (mkA (sG a) (sG a) iter (sCall a) (sPred a) (sNext a) (sCostNext a) (sH a)) in
    steps_all (over_step eps iter call s) (snext s) c
  else
    let c := set_st c s (mkA INFINITECOST (sG a) (sIter a) (sCall a) (sPred a) (sNext a) (sCostNext a) (sH a)) in
    do c <- UpdateSetMembership eps iter c s;
    steps_all (under_step eps iter call s) (snext s) c.

(** The loop test without the clock, adplanner.cpp:495-497. *)
Definition goal_open (eps : Q) (ga : astate) (minkey : ckey) : bool := key_gt (ad_key eps ga) minkey || (sG ga >? sV ga).
(** adplanner.cpp:492-577: the while loop of ComputePath (goalkey is always the current key of the goal). *)
Fixpoint ad_loop (fuel : nat) (clk : nat -> bool) (eps : Q) (iter call : Z) (goal : nat) (c : core) (nclk : nat) : dres (core * nat) :=
  match fuel with
  | O => OOF
  | S fuel =>
    do ga <- dlift DBadState (rdst c goal);
    do minkey <- dlift DHeap (getminkeyheap ckeyops (cOpen c));
    if negb (emptyheap (cOpen c)) && (k0 minkey <? INFINITECOST) && goal_open eps ga minkey then
      if clk nclk then
        do r <- dlift DHeap (deleteminheap ckeyops (cOpen c));
        do c <- ad_expand eps iter call r.1 (mkCore (cSt c) r.2 (cInc c));
        ad_loop fuel clk eps iter call goal c (S nclk)
      else Ok (c, S nclk)
    else Ok (c, nclk)
  end.
(** adplanner.cpp:469-613 ComputePath; result 1, 0 or 2. A state is expanded at most twice (C54), hence the fuel. *)
Definition ComputePath (clk : nat -> bool) (eps : Q) (iter call : Z) (goal : option nat) (c : core) (nclk : nat)
  : dres (Z * core * nat) :=
  match goal with
  | None => Exn DNoGoal
  | Some g =>
    do c <- dlift DBadState (refresh e fwd call true c g);
    do r <- ad_loop (S (S (2 * eSize e))) clk eps iter call g c nclk;
    let c := r.1 in
    do ga <- dlift DBadState (rdst c g);
    do minkey <- dlift DHeap (getminkeyheap ckeyops (cOpen c));
    let retv :=
      if (sG ga =? INFINITECOST) && emptyheap (cOpen c) then 0
      else if negb (emptyheap (cOpen c)) && goal_open eps ga minkey then 2
      else if (sG ga =? INFINITECOST) && negb (emptyheap (cOpen c)) then 0
      else 1 in
    Ok (retv, c, r.2)
  end.

(** adplanner.cpp:615-639 BuildNewOPENList (without the reset of the flag). *)
Fixpoint ad_build_loop (fuel : nat) (eps : Q) (c : core) : dres core :=
  do f <- dlift DList (getfirst (cInc c));
  match f with
  | None => Ok c
  | Some s =>
    match fuel with
    | O => OOF
    | S fuel =>
      do a <- dlift DBadState (rdst c s);
      do h <- dlift DHeap (if inheap (cOpen c) s then updateheap ckeyops (cOpen c) s (ad_key eps a)
                           else insertheap ckeyops (cOpen c) s (ad_key eps a));
      do l <- dlift DList (list_remove (cInc c) s);
      ad_build_loop fuel eps (mkCore (cSt c) h l)
    end
  end.
Definition ad_build (eps : Q) (c : core) : dres core := ad_build_loop (csize (cInc c)) eps c.
(** adplanner.cpp:641-659 Reevaluatefvals (without the reset of the flag). *)
Definition ad_fvals (eps : Q) (c : core) : dres core :=
  let f s (k : ckey) := match cSt c !! s with Some a => ad_key eps a | None => k end in
  do h <- dlift DHeap (rekey f (cOpen c));
  do h <- dlift DHeap (makeheap ckeyops h);
  Ok (mkCore (cSt c) h (cInc c)).
End search.

(** adplanner.cpp:732-775 ReInitializeSearchStateSpace. *)
Definition ad_reinit (e : aenv) (p : ara) : dres ara :=
  let p := with_iter0 (with_call_incr p) in
  do h <- dlift DHeap (makeemptyheap (cOpen (aC p)));
  do l <- dlift DList (makeemptylist (cInc (aC p)));
  let p := with_sat (with_eps (with_core p (mkCore (cSt (aC p)) h l)) (aInit p)) (inject_Z INFINITECOST) in
  match aStart p with
  | None => UB                                             (* dereference of a NULL searchstartstate *)
  | Some s =>
    do c <- dlift DBadState (refresh e (aFwd p) (aCall p) (bool_decide (is_Some (aGoal p))) (aC p) s);
    do a <- dlift DBadState (rdst c s);
    let a := mkA (sV a) 0 (sIter a) (sCall a) (sPred a) (sNext a) (sCostNext a) (sH a) in
    let c := set_st c s a in
    do h <- dlift DHeap (insertheap ckeyops (cOpen c) s (ad_key (aEps p) a));
    Ok (with_new (with_reeval (with_reinit (with_core p (mkCore (cSt c) h (cInc c))) false) false) false)
  end.

(** adplanner.cpp:43-85 constructor, 671-690 CreateSearchStateSpace, 777-799 InitializeSearchStateSpace. *)
Definition ad_blank (fwd first : bool) (i d f : Q) : ara :=
  mkAra (mkCore ∅ (new_heap HEAPSIZE_INIT) new_list) i (inject_Z INFINITECOST) 0 0 None None false true false
        fwd first i d f false.
(** adplanner.h:42-46: AD_DEFAULT_INITIAL_EPS 10.0, AD_DECREASE_EPS 0.2, AD_FINAL_EPS 1.0. *)
Definition new_ad (fwd : bool) : ara := ad_blank fwd false 10 (2 # 10) 1.

(** adplanner.cpp:801-826 SetSearchGoalState. *)
Definition ad_SetSearchGoalState (e : aenv) (p : ara) (id : nat) : dres ara :=
  if bool_decide (aGoal p = Some id) then Ok p
  else
    do c <- dlift DBadState (GetState e (aFwd p) (aCall p) (bool_decide (is_Some (aGoal p))) (aC p) id);
    Ok (with_reeval (with_new (with_iter_incr (with_eps (with_sat (with_goal (with_core p c) (Some id)) (inject_Z INFINITECOST))
                              (aInit p))) true) true).
(** adplanner.cpp:828-838 SetSearchStartState. *)
Definition ad_SetSearchStartState (e : aenv) (p : ara) (id : nat) : dres ara :=
  do c <- dlift DBadState (GetState e (aFwd p) (aCall p) (bool_decide (is_Some (aGoal p))) (aC p) id);
  let p := with_core p c in
  if bool_decide (aStart p = Some id) then Ok p
  else Ok (with_reinit (with_start p (Some id)) true).
(** adplanner.cpp:1344-1383 set_goal, set_start. *)
Definition ad_set_goal (e : aenv) (p : ara) (id : nat) : dres ara :=
  if aFwd p then ad_SetSearchGoalState e p id else ad_SetSearchStartState e p id.
Definition ad_set_start (e : aenv) (p : ara) (id : nat) : dres ara :=
  if aFwd p then ad_SetSearchStartState e p id else ad_SetSearchGoalState e p id.

(** adplanner.cpp:1231-1262: the loop of Update_SearchSuccs_of_ChangedEdges over the listed states; the result also
    tells whether numofstatesaffected > 0. *)
Fixpoint update_states (e : aenv) (p : ara) (l : list nat) (c : core) (aff : bool) : dres (core * bool) :=
  match l with
  | [] => Ok (c, aff)
  | s :: l =>
    if (eSize e <=? s)%nat then UB                                    (* StateID2IndexMapping[s] out of range *)
    else
      match cSt c !! s with
      | None => update_states e p l c aff
      | Some a =>
        match aStart p with
        | None => UB                                                      (* dereference of a NULL searchstartstate *)
        | Some st =>
          if negb (s =? st)%nat && (sCall a =? aCall p) then
            do c <- Recomputegval e (aFwd p) (aCall p) c s;
            do c <- UpdateSetMembership (aEps p) (aIter p) c s;
            update_states e p l c true
          else update_states e p l c aff
        end
      end
  end.
(** adplanner.cpp:1212-1279 Update_SearchSuccs_of_ChangedEdges; also 1385-1397 update_succs_of_changededges and update_preds_of_changededges. *)
Definition Update_SearchSuccs (e : aenv) (p : ara) (l : list nat) : dres ara :=
  let p := if (eSize e / 10 <? length l)%nat then with_reinit p true else p in
  let p := with_reeval (with_new (with_iter_incr p) true) true in
  do r <- update_states e p l (aC p) false;
  let p := with_core p r.1 in
  Ok (if (r.2 : bool) then with_sat (with_eps p (aInit p)) (inject_Z INFINITECOST) else p).
(** adplanner.cpp:1449-1461 costs_changed; [l] is what getSuccessors() (forward) or getPredecessors() (backward) of the query returns. *)
Definition ad_costs_changed (e : aenv) (p : ara) (l : list nat) : dres ara :=
  let p := with_reeval p true in
  if aReinit p || (aIter p =? 0) then Ok p
  else Update_SearchSuccs e p l.
(** adplanner.cpp:1399-1406 force_planning_from_scratch. *)
Definition ad_force (p : ara) : ara := with_reinit p true.
(** adplanner.cpp:1408-1437 force_planning_from_scratch_and_free_memory. *)
Definition ad_force_free (e : aenv) (p : ara) : dres ara :=
  let sg := if aFwd p then (aStart p, aGoal p) else (aGoal p, aStart p) in
  let p := ad_blank (aFwd p) (aFirst p) (aInit p) (aDec p) (aFinal p) in
  do p <- (match sg.1 with Some s => ad_set_start e p s | None => Ok p end);
  match sg.2 with Some g => ad_set_goal e p g | None => Ok p end.

(** adplanner.cpp:846-847, 991: max_steps. *)
Definition max_steps : nat := Z.to_nat 100000.
(** adplanner.cpp:840-888 ReconstructPath (the loop; only called when searching forward); result 1, 0 or -1. *)
Fixpoint ad_reconstruct (steps : nat) (start : nat) (s : nat) (c : core) : dres (Z * core) :=
  if (s =? start)%nat then Ok (1, c)
  else
    match steps with
    | O => Ok (0, c)
    | S steps =>
      do a <- dlift DBadState (rdst c s);
      if sG a =? INFINITECOST then Ok (-1, c)
      else match sPred a with
      | None => Exn DBestPred
      | Some pr =>
        do b <- dlift DBadState (rdst c pr);
        let c := set_st c pr (mkA (sV b) (sG b) (sIter b) (sCall b) (sPred b) (Some s) (sCostNext b) (sH b)) in
        if sV b >=? sG a then Exn DNonDecreasing
        else ad_reconstruct steps start pr c
      end
    end.
(** adplanner.cpp:990-1047: the loop of GetSearchPath that follows bestnextstate; the path is cleared if the target is not reached. *)
Fixpoint ad_follow (steps : nat) (target : nat) (s : nat) (c : core) (acc : list nat) : dres (list nat) :=
  if (s =? target)%nat then Ok acc
  else
    match steps with
    | O => Ok []
    | S steps =>
      do a <- dlift DBadState (rdst c s);
      match sNext a with
      | None => Ok []
      | Some n =>
        if sG a =? INFINITECOST then Ok []
        else if sV a <? sG a then Exn DUnder
        else ad_follow steps target n c (acc ++ [n])
      end
    end.
(** adplanner.cpp:949-1052 GetSearchPath (its solcost is only printed). *)
Definition ad_path (p : ara) : dres (list nat * core) :=
  match aStart p, aGoal p with
  | Some s, Some g =>
    if aFwd p then
      do r <- ad_reconstruct max_steps s g (aC p);
      if negb (r.1 =? 1) then Ok ([], r.2)
      else do path <- ad_follow max_steps g s r.2 [s]; Ok (path, r.2)
    else
      do path <- ad_follow max_steps s g (aC p) [g];
      Ok (path, aC p)
  | _, _ => UB
  end.

(** adplanner.cpp:1098-1122: the beginning of a round of the main loop of Search. *)
Definition ad_first_iter (p : ara) : ara := if aIter p =? 0 then with_iter_incr p else p.
Definition ad_eps_step (p : ara) (bFirst : bool) : ara :=
  if Qltb (Qabs (aSat p - aEps p)) ERR_EPS && negb bFirst then
    let ep := (aEps p - aDec p)%Q in
    let ep := if Qltb ep (aFinal p) then aFinal p else ep in
    with_iter_incr (with_new (with_reeval (with_eps p ep) true) true)
  else p.
Definition ad_rebuild (p : ara) : dres ara :=
  if aNew p then do c <- ad_build (aEps p) (aC p); Ok (with_new (with_core p c) false) else Ok p.
Definition ad_reprio (p : ara) : dres ara :=
  if aReeval p then do c <- ad_fvals (aEps p) (aC p); Ok (with_reeval (with_core p c) false) else Ok p.
(** adplanner.cpp:1089-1166: the main loop of Search. *)
Fixpoint ad_search_loop (fuel : nat) (e : aenv) (clk : nat -> bool) (bFirst : bool) (p : ara) (nclk : nat) : dres (ara * nat) :=
  match fuel with
  | O => OOF
  | S fuel =>
    if Qltb (aFinal p) (aSat p) then
      if clk nclk then
        do p <- ad_rebuild (ad_eps_step (ad_first_iter p) bFirst);
        do p <- ad_reprio p;
        do r <- ComputePath e (aFwd p) clk (aEps p) (aIter p) (aCall p) (aGoal p) (aC p) (S nclk);
        let p := with_core p r.1.2 in
        let p := if r.1.1 =? 1 then with_sat p (aEps p) else p in
        if bFirst then Ok (p, r.2)
        else
          match aGoal p with
          | None => UB
          | Some g =>
            do ga <- dlift DBadState (rdst (aC p) g);
            if sG ga =? INFINITECOST then Ok (p, r.2)
            else ad_search_loop fuel e clk bFirst p r.2
          end
      else Ok (p, S nclk)
    else Ok (p, nclk)
  end.

(** adplanner.cpp:1054-1210 Search (replan always passes bOptimalSolution = false).  Result: found?, path, PathCost. *)
Definition ad_Search (fuel : nat) (e : aenv) (clk : nat -> bool) (p : ara) : dres (bool * list nat * Z * ara) :=
  let p := if aReeval p then with_core p (Reevaluatehvals e (aFwd p) (aC p)) else p in
  do p <- (if aReinit p then ad_reinit e p else Ok p);
  do r <- ad_search_loop fuel e clk (aFirst p) p 0;
  let p := r.1 in
  match aGoal p with
  | None => UB
  | Some g =>
    do ga <- dlift DBadState (rdst (aC p) g);
    if (sG ga =? INFINITECOST) || Qeq_bool (aSat p) (inject_Z INFINITECOST) then Ok (false, [], sG ga, p)
    else
      do r <- ad_path p;
      Ok (true, r.1, sG ga, with_core p r.2)
  end.

(** adplanner.cpp:1289-1342 replan (with the time limits in [clk]). *)
Definition ad_replan (fuel : nat) (e : aenv) (clk : nat -> bool) (p : ara) (q : params) : dres (bool * list nat * Z * ara) :=
  ad_Search fuel e clk (set_params p q).
(** adplanner.h:208 get_solution_eps. *)
Definition ad_solution_eps (p : ara) : Q := aSat p.
