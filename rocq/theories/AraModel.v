(** Model of class ARAPlanner, /repo/src/planners/araplanner.cpp and
    /repo/src/include/sbpl/planners/araplanner.h, on top of the models of CHeap and CList.

    What is simplified:
    - CMDPSTATE* and ARAState* are the state's id; [cSt] is searchMDP plus
      environment_->StateID2IndexMapping (absent = index -1, the state was not created yet);
      fields heapindex and listelem[0] live in the models of the heap resp. the list.
    - The environment is a record of functions: what GetSuccs / GetPreds / GetGoalHeuristic / GetStartHeuristic
      return, and the size of StateID2IndexMapping (taken as final from the beginning). The calls have no side effect on the search.
    - Every evaluation of the clock conditions "clock() - TimeStarted < ..." is one question to an arbitrary oracle [clk];
      [nclk] counts the questions.  MaxNumofSecs and repair_time therefore do not occur.
    - double eps values are exact rationals.
    - Statistics (expands, planning times, stats, MaxMemoryCounter), printing and the #if DEBUG code are dropped.
    - [aWrap] is a ghost: it becomes true when a 16-bit counter (callnumber, searchiteration) overflows. The code has no such variable. *)
From Verif Require Import Base KeyModel HeapModel ListModel AngleModel.
From Coq Require Import QArith.
Local Open Scope Z_scope.

(** The exceptions thrown by the modelled code. *)
Inductive aexn := XHeap (* from CHeap *) | XList (* from CList *) | XBadState (* GetState: invalid id *)
| XNoGoal (* "no goal state is set" *) | XBestPred (* "bestpred is NULL" *) | XNonDecreasing (* "g-values are non-decreasing" *).
Notation ares A := (outcome aexn A).
Definition lift {E A} (x : aexn) (r : outcome E A) : ares A :=
  match r with Ok a => Ok a | Exn _ => Exn x | UB => UB | OOF => OOF end.

(** The environment as the planner sees it (discrete_space_information/environment.h). *)
Record aenv := mkEnv {
  eSize : nat;
  eSuccs : nat -> list (nat * Z);
  ePreds : nat -> list (nat * Z);
  eGoalH : nat -> Z;
  eStartH : nat -> Z
}.

(** araplanner.h:60-98 ARASEARCHSTATEDATA. *)
Record astate := mkA {
  sV : Z; sG : Z;             (* unsigned int *)
  sIter : Z; sCall : Z;       (* short unsigned int *)
  sPred : option nat;         (* bestpredstate *)
  sNext : option nat;         (* bestnextstate *)
  sCostNext : Z;              (* costtobestnextstate *)
  sH : Z
}.

(** The part of ARASEARCHSTATESPACE (araplanner.h:100-122) that changes during ImprovePath. *)
Record core := mkCore { cSt : gmap nat astate; cOpen : heap ckey; cInc : clist }.

(** araplanner.h:100-122 ARASEARCHSTATESPACE and the member variables of ARAPlanner (araplanner.h:255-300). *)
Record ara := mkAra {
  aC : core;
  aEps : Q; aSat : Q;              (* eps, eps_satisfied *)
  aIter : Z; aCall : Z;            (* searchiteration, callnumber *)
  aGoal : option nat; aStart : option nat;
  aReeval : bool; aReinit : bool; aNew : bool;
  aFwd : bool; aFirst : bool;      (* bforwardsearch, bsearchuntilfirstsolution *)
  aInit : Q; aDec : Q; aFinal : Q; (* finitial_eps, dec_eps, final_epsilon *)
  aWrap : bool                     (* ghost *)
}.

(** Assignments to single members. *)
Definition with_core (p : ara) c := mkAra c (aEps p) (aSat p) (aIter p) (aCall p) (aGoal p) (aStart p)
  (aReeval p) (aReinit p) (aNew p) (aFwd p) (aFirst p) (aInit p) (aDec p) (aFinal p) (aWrap p).
Definition with_eps (p : ara) v := mkAra (aC p) v (aSat p) (aIter p) (aCall p) (aGoal p) (aStart p)
  (aReeval p) (aReinit p) (aNew p) (aFwd p) (aFirst p) (aInit p) (aDec p) (aFinal p) (aWrap p).
Definition with_sat (p : ara) v := mkAra (aC p) (aEps p) v (aIter p) (aCall p) (aGoal p) (aStart p)
  (aReeval p) (aReinit p) (aNew p) (aFwd p) (aFirst p) (aInit p) (aDec p) (aFinal p) (aWrap p).
Definition with_goal (p : ara) v := mkAra (aC p) (aEps p) (aSat p) (aIter p) (aCall p) v (aStart p)
  (aReeval p) (aReinit p) (aNew p) (aFwd p) (aFirst p) (aInit p) (aDec p) (aFinal p) (aWrap p).
Definition with_start (p : ara) v := mkAra (aC p) (aEps p) (aSat p) (aIter p) (aCall p) (aGoal p) v
  (aReeval p) (aReinit p) (aNew p) (aFwd p) (aFirst p) (aInit p) (aDec p) (aFinal p) (aWrap p).
Definition with_reeval (p : ara) v := mkAra (aC p) (aEps p) (aSat p) (aIter p) (aCall p) (aGoal p) (aStart p)
  v (aReinit p) (aNew p) (aFwd p) (aFirst p) (aInit p) (aDec p) (aFinal p) (aWrap p).
Definition with_reinit (p : ara) v := mkAra (aC p) (aEps p) (aSat p) (aIter p) (aCall p) (aGoal p) (aStart p)
  (aReeval p) v (aNew p) (aFwd p) (aFirst p) (aInit p) (aDec p) (aFinal p) (aWrap p).
Definition with_new (p : ara) v := mkAra (aC p) (aEps p) (aSat p) (aIter p) (aCall p) (aGoal p) (aStart p)
  (aReeval p) (aReinit p) v (aFwd p) (aFirst p) (aInit p) (aDec p) (aFinal p) (aWrap p).
(** searchiteration++ / callnumber++ on unsigned short. *)
Definition with_iter_incr (p : ara) := mkAra (aC p) (aEps p) (aSat p) (u16 (aIter p + 1)) (aCall p) (aGoal p) (aStart p)
  (aReeval p) (aReinit p) (aNew p) (aFwd p) (aFirst p) (aInit p) (aDec p) (aFinal p) (aWrap p || (aIter p + 1 >=? 65536)).
Definition with_call_incr (p : ara) := mkAra (aC p) (aEps p) (aSat p) (aIter p) (u16 (aCall p + 1)) (aGoal p) (aStart p)
  (aReeval p) (aReinit p) (aNew p) (aFwd p) (aFirst p) (aInit p) (aDec p) (aFinal p) (aWrap p || (aCall p + 1 >=? 65536)).
Definition with_iter0 (p : ara) := mkAra (aC p) (aEps p) (aSat p) 0 (aCall p) (aGoal p) (aStart p)
  (aReeval p) (aReinit p) (aNew p) (aFwd p) (aFirst p) (aInit p) (aDec p) (aFinal p) (aWrap p).

(** C++ conversion (int) of a double: undefined out of range; here the x86 result (INT_MIN). *)
Definition toint (x : Q) : Z :=
  let t := Qtrunc x in if (-2147483648 <=? t) && (t <? 2147483648) then t else -2147483648.
(** The priority [g + (int)(eps * h)] : unsigned + int is unsigned; key[1] stays 0 (CKey's constructor). *)
Definition fkey (eps : Q) (g h : Z) : ckey := mkKey (u32 (g + toint (eps * inject_Z h))) 0.

Section search.
Context (e : aenv) (fwd : bool).

(** araplanner.cpp:149-178 ComputeHeuristic. *)
Definition ComputeHeuristic (id : nat) : Z := if fwd then eGoalH e id else eStartH e id.

(** araplanner.cpp:181-211 InitializeSearchStateInfo and 214-247 ReInitializeSearchStateInfo (same assignments; USE_HEUR is 1);
    [goalset]: searchgoalstate != NULL. *)
Definition fresh_info (call : Z) (goalset : bool) (id : nat) : astate :=
  mkA INFINITECOST INFINITECOST 0 call None None INFINITECOST (if goalset then ComputeHeuristic id else 0).
Definition ReInitializeSearchStateInfo (call : Z) (goalset : bool) (c : core) (id : nat) : core :=
  mkCore (<[id := fresh_info call goalset id]> (cSt c))
         (set_idx (cOpen c) id 0)                                    (* heapindex = 0 *)
         (mkList (cfirst (cInc c)) (clast (cInc c)) (csize (cInc c)) (nodes (cInc c))
                 (delete id (elem (cInc c))) (nextaddr (cInc c))).    (* listelem = NULL *)

(** araplanner.cpp:103-145 GetState and CreateState. *)
Definition GetState (call : Z) (goalset : bool) (c : core) (id : nat) : ares core :=
  if (eSize e <=? id)%nat then Exn XBadState
  else match cSt c !! id with
       | Some _ => Ok c
       | None => Ok (ReInitializeSearchStateInfo call goalset c id)
       end.
Definition rdst (c : core) (id : nat) : ares astate :=
  match cSt c !! id with Some a => Ok a | None => UB end.
Definition set_st (c : core) (id : nat) (a : astate) : core := mkCore (<[id := a]> (cSt c)) (cOpen c) (cInc c).

(** [if (state->callnumberaccessed != callnumber) ReInitializeSearchStateInfo(state)]. *)
Definition refresh (call : Z) (goalset : bool) (c : core) (id : nat) : ares core :=
  do a <- rdst c id;
  Ok (if sCall a =? call then c else ReInitializeSearchStateInfo call goalset c id).

(** araplanner.cpp:256-300 UpdatePreds and 303-335 UpdateSuccs: one round of the loop. The two texts differ in the
    fields that remember the best neighbour. *)
Definition relax (eps : Q) (iter call : Z) (s : nat) (c : core) (tc : nat * Z) : ares core :=
  let t := tc.1 in let cost := tc.2 in
  do c <- GetState call true c t;
  do c <- refresh call true c t;
  do a <- rdst c t;
  do b <- rdst c s;
  let ng := u32 (sV b + cost) in
  if sG a >? ng then
    let a' := if fwd then mkA (sV a) ng (sIter a) (sCall a) (Some s) (sNext a) (sCostNext a) (sH a)
              else mkA (sV a) ng (sIter a) (sCall a) (sPred a) (Some s) cost (sH a) in
    let c := set_st c t a' in
    if negb (sIter a =? iter) then
      let key := fkey eps ng (sH a) in
      do h <- lift XHeap (if inheap (cOpen c) t then updateheap ckeyops (cOpen c) t key
                          else insertheap ckeyops (cOpen c) t key);
      Ok (mkCore (cSt c) h (cInc c))
    else if list_in (cInc c) t then Ok c
    else do l <- lift XList (list_insert (cInc c) t); Ok (mkCore (cSt c) (cOpen c) l)
  else Ok c.
Fixpoint relax_all (eps : Q) (iter call : Z) (s : nat) (ns : list (nat * Z)) (c : core) : ares core :=
  match ns with
  | [] => Ok c
  | tc :: ns => do c <- relax eps iter call s c tc; relax_all eps iter call s ns c
  end.
Definition nbrs (s : nat) : list (nat * Z) := if fwd then eSuccs e s else ePreds e s.

(** araplanner.cpp:371-443 the while loop of ImprovePath.  goalkey is always the goal's current g (406-413);
    the clock is asked only if the other conditions hold (short-circuit &&). *)
Fixpoint improve_loop (fuel : nat) (clk : nat -> bool) (eps : Q) (iter call : Z) (goal : nat) (c : core) (nclk : nat)
  : ares (core * nat) :=
  match fuel with
  | O => OOF
  | S fuel =>
    do ga <- rdst c goal;
    do minkey <- lift XHeap (getminkeyheap ckeyops (cOpen c));
    if negb (emptyheap (cOpen c)) && (k0 minkey <? INFINITECOST) && key_gt (mkKey (sG ga) 0) minkey then
      if clk nclk then
        do r <- lift XHeap (deleteminheap ckeyops (cOpen c));
        let s := r.1 in
        let c := mkCore (cSt c) r.2 (cInc c) in
        do a <- rdst c s;
        let c := set_st c s (mkA (sG a) (sG a) iter (sCall a) (sPred a) (sNext a) (sCostNext a) (sH a)) in
        do c <- relax_all eps iter call s (nbrs s) c;
        improve_loop fuel clk eps iter call goal c (S nclk)
      else Ok (c, S nclk)
    else Ok (c, nclk)
  end.

(** araplanner.cpp:347-465 ImprovePath; result 1, 0 or 2. Each state is expanded at most once per iteration, hence the fuel. *)
Definition ImprovePath (clk : nat -> bool) (eps : Q) (iter call : Z) (goal : option nat) (c : core) (nclk : nat)
  : ares (Z * core * nat) :=
  match goal with
  | None => Exn XNoGoal
  | Some g =>
    do c <- refresh call true c g;
    do r <- improve_loop (S (S (eSize e))) clk eps iter call g c nclk;
    let c := r.1 in
    do ga <- rdst c g;
    do minkey <- lift XHeap (getminkeyheap ckeyops (cOpen c));
    let retv :=
      if (sG ga =? INFINITECOST) && emptyheap (cOpen c) then 0
      else if negb (emptyheap (cOpen c)) && key_gt (mkKey (sG ga) 0) minkey then 2
      else if (sG ga =? INFINITECOST) && negb (emptyheap (cOpen c)) then 0
      else 1 in
    Ok (retv, c, r.2)
  end.

(** araplanner.cpp:467-486 BuildNewOPENList. *)
Fixpoint build_loop (fuel : nat) (eps : Q) (c : core) : ares core :=
  do f <- lift XList (getfirst (cInc c));
  match f with
  | None => Ok c
  | Some s =>
    match fuel with
    | O => OOF
    | S fuel =>
      do a <- rdst c s;
      do h <- lift XHeap (insertheap ckeyops (cOpen c) s (fkey eps (sG a) (sH a)));
      do l <- lift XList (list_remove (cInc c) s);
      build_loop fuel eps (mkCore (cSt c) h l)
    end
  end.
Definition BuildNewOPENList (eps : Q) (c : core) : ares core := build_loop (csize (cInc c)) eps c.

(** araplanner.cpp:488-503 Reevaluatefvals (keeps key[1]; heap states always have search info). *)
Definition Reevaluatefvals (eps : Q) (c : core) : ares core :=
  let f s (k : ckey) := match cSt c !! s with Some a => mkKey (k0 (fkey eps (sG a) (sH a))) (k1 k) | None => k end in
  do h <- lift XHeap (rekey f (cOpen c));
  do h <- lift XHeap (makeheap ckeyops h);
  Ok (mkCore (cSt c) h (cInc c)).

(** araplanner.cpp:505-513 Reevaluatehvals. *)
Definition Reevaluatehvals (c : core) : core :=
  mkCore (map_imap (fun id a => Some (mkA (sV a) (sG a) (sIter a) (sCall a) (sPred a) (sNext a) (sCostNext a)
                                          (ComputeHeuristic id))) (cSt c)) (cOpen c) (cInc c).
End search.

(** araplanner.cpp:578-629 ReInitializeSearchStateSpace ((long int)(eps*h) agrees with (int)(eps*h) in range). *)
Definition ReInitializeSearchStateSpace (e : aenv) (p : ara) : ares ara :=
  let p := with_new (with_iter0 (with_call_incr p)) true in
  do h <- lift XHeap (makeemptyheap (cOpen (aC p)));
  do l <- lift XList (makeemptylist (cInc (aC p)));
  let p := with_sat (with_eps (with_core p (mkCore (cSt (aC p)) h l)) (aInit p)) (inject_Z INFINITECOST) in
  match aStart p, aGoal p with
  | Some s, Some g =>
    do c <- refresh e (aFwd p) (aCall p) true (aC p) s;
    do a <- rdst c s;
    let c := set_st c s (mkA (sV a) 0 (sIter a) (sCall a) (sPred a) (sNext a) (sCostNext a) (sH a)) in
    do c <- refresh e (aFwd p) (aCall p) true c g;
    do a <- rdst c s;
    do h <- lift XHeap (insertheap ckeyops (cOpen c) s (mkKey (toint (aEps p * inject_Z (sH a))) 0));
    Ok (with_reeval (with_reinit (with_core p (mkCore (cSt c) h (cInc c))) false) false)
  | _, _ => UB                                             (* dereference of a NULL searchstartstate / searchgoalstate *)
  end.

(** araplanner.cpp:46-84 constructor with 515-536 CreateSearchStateSpace and 632-659 InitializeSearchStateSpace. *)
Definition blank (fwd first : bool) (i d f : Q) : ara :=
  mkAra (mkCore ∅ (new_heap HEAPSIZE_INIT) new_list) i (inject_Z INFINITECOST) 0 0 None None false true true
        fwd first i d f false.
(** araplanner.h:42-46: ARA_DEFAULT_INITIAL_EPS 5.0, ARA_DECREASE_EPS 0.2, ARA_FINAL_EPS 1.0. *)
Definition new_ara (fwd : bool) : ara := blank fwd false 5 (2 # 10) 1.

(** araplanner.cpp:661-681 SetSearchGoalState. *)
Definition SetSearchGoalState (e : aenv) (p : ara) (id : nat) : ares ara :=
  if bool_decide (aGoal p = Some id) then Ok p
  else
    do c <- GetState e (aFwd p) (aCall p) (bool_decide (is_Some (aGoal p))) (aC p) id;
    Ok (with_reeval (with_eps (with_new (with_sat (with_goal (with_core p c) (Some id)) (inject_Z INFINITECOST)) true)
                              (aInit p)) true).
(** araplanner.cpp:683-693 SetSearchStartState. *)
Definition SetSearchStartState (e : aenv) (p : ara) (id : nat) : ares ara :=
  do c <- GetState e (aFwd p) (aCall p) (bool_decide (is_Some (aGoal p))) (aC p) id;
  let p := with_core p c in
  if bool_decide (aStart p = Some id) then Ok p
  else Ok (with_reinit (with_start p (Some id)) true).

(** araplanner.cpp:1085-1122 set_goal, set_start. *)
Definition set_goal (e : aenv) (p : ara) (id : nat) : ares ara :=
  if aFwd p then SetSearchGoalState e p id else SetSearchStartState e p id.
Definition set_start (e : aenv) (p : ara) (id : nat) : ares ara :=
  if aFwd p then SetSearchStartState e p id else SetSearchGoalState e p id.
(** araplanner.cpp:1124-1134 costs_changed (both overloads). *)
Definition costs_changed (p : ara) : ara := with_reinit (with_reeval p true) true.
(** araplanner.cpp:1136-1143 force_planning_from_scratch. *)
Definition force_planning_from_scratch (p : ara) : ara := with_reinit p true.
(** araplanner.cpp:1145-1174 force_planning_from_scratch_and_free_memory. *)
Definition force_planning_from_scratch_and_free_memory (e : aenv) (p : ara) : ares ara :=
  let sg := if aFwd p then (aStart p, aGoal p) else (aGoal p, aStart p) in
  let p := blank (aFwd p) (aFirst p) (aInit p) (aDec p) (aFinal p) in
  do p <- (match sg.1 with Some s => set_start e p s | None => Ok p end);
  match sg.2 with Some g => set_goal e p g | None => Ok p end.

(** araplanner.cpp:695-737 ReconstructPath (only called when searching forward); the result is ignored by the caller. *)
Fixpoint reconstruct (fuel : nat) (start : nat) (s : nat) (c : core) : ares core :=
  match fuel with
  | O => OOF
  | S fuel =>
    if (s =? start)%nat then Ok c
    else
      do a <- rdst c s;
      if sG a =? INFINITECOST then Ok c                    (* return -1 *)
      else match sPred a with
      | None => Exn XBestPred
      | Some pr =>
        do b <- rdst c pr;
        let c := set_st c pr (mkA (sV b) (sG b) (sIter b) (sCall b) (sPred b) (Some s) (sCostNext b) (sH b)) in
        if sV b >=? sG a then Exn XNonDecreasing
        else reconstruct fuel start pr c
      end
  end.

(** araplanner.cpp:806-889 GetSearchPath: the loop of 838-886 that follows bestnextstate (the action cost computed there
    is only printed). *)
Fixpoint follow (fuel : nat) (target : nat) (s : nat) (c : core) (acc : list nat) : ares (list nat) :=
  match fuel with
  | O => OOF
  | S fuel =>
    if (s =? target)%nat then Ok acc
    else
      do a <- rdst c s;
      match sNext a with
      | None => Ok acc
      | Some n =>
        if sG a =? INFINITECOST then Ok acc
        else follow fuel target n c (acc ++ [n])
      end
  end.
Definition GetSearchPath (e : aenv) (p : ara) : ares (list nat * core) :=
  match aStart p, aGoal p with
  | Some s, Some g =>
    if aFwd p then
      do c <- reconstruct (S (eSize e)) s g (aC p);
      do path <- follow (S (eSize e)) g s c [s];
      Ok (path, c)
    else
      do path <- follow (S (eSize e)) s g (aC p) [g];
      Ok (path, aC p)
  | _, _ => UB
  end.

(** araplanner.cpp:928-1008: the main loop of Search.  Lines 928-931 are the loop test, 934-945 the eps step, 947-951 the new
    iteration, 953-955 the new priorities, 957-960 ImprovePath, 1002-1007 the breaks. ERR_EPS is 1e-7 (config.h:63). *)
Definition ERR_EPS : Q := 1 # 10000000.
Definition eps_step (p : ara) (bFirst : bool) : ara :=
  if Qltb (Qabs (aSat p - aEps p)) ERR_EPS && negb bFirst then
    let ep := (aEps p - aDec p)%Q in
    let ep := if Qltb ep (aFinal p) then aFinal p else ep in
    with_new (with_reeval (with_eps p ep) true) true
  else p.
Definition new_iteration (e : aenv) (p : ara) : ares ara :=
  if aNew p then
    let p := with_new (with_iter_incr p) false in
    do c <- BuildNewOPENList (aEps p) (aC p);
    Ok (with_core p c)
  else Ok p.
Definition new_priorities (p : ara) : ares ara :=
  if aReeval p then
    do c <- Reevaluatefvals (aEps p) (aC p);
    Ok (with_reeval (with_core p c) false)
  else Ok p.
Fixpoint search_loop (fuel : nat) (e : aenv) (clk : nat -> bool) (bFirst : bool) (p : ara) (nclk : nat) : ares (ara * nat) :=
  match fuel with
  | O => OOF
  | S fuel =>
    if Qltb (aFinal p) (aSat p) then
      if clk nclk then
        do p <- new_iteration e (eps_step p bFirst);
        do p <- new_priorities p;
        do r <- ImprovePath e (aFwd p) clk (aEps p) (aIter p) (aCall p) (aGoal p) (aC p) (S nclk);
        let p := with_core p r.1.2 in
        let p := if r.1.1 =? 1 then with_sat p (aEps p) else p in
        if bFirst then Ok (p, r.2)
        else
          match aGoal p with
          | None => UB
          | Some g =>
            do ga <- rdst (aC p) g;
            if sG ga =? INFINITECOST then Ok (p, r.2)
            else search_loop fuel e clk bFirst p r.2
          end
      else Ok (p, S nclk)
    else Ok (p, nclk)
  end.

(** araplanner.cpp:891-1045 Search (replan always passes bOptimalSolution = false, so lines 917-921 are unreachable through the
    API).  Result: found?, path, PathCost. *)
Definition Search (fuel : nat) (e : aenv) (clk : nat -> bool) (p : ara) : ares (bool * list nat * Z * ara) :=
  let p := if aReeval p then with_core p (Reevaluatehvals e (aFwd p) (aC p)) else p in
  do p <- (if aReinit p then ReInitializeSearchStateSpace e p else Ok p);
  do r <- search_loop fuel e clk (aFirst p) p 0;
  let p := r.1 in
  match aGoal p with
  | None => UB
  | Some g =>
    do ga <- rdst (aC p) g;
    if sG ga =? INFINITECOST then Ok (false, [], sG ga, p)
    else
      do r <- GetSearchPath e p;
      Ok (true, r.1, sG ga, with_core p r.2)
  end.

(** araplanner.cpp:1049-1083 replan: ReplanParams version (with the time limits in [clk]); result value (int)bFound,
    solution ids, solution cost. *)
Record params := mkParams { pInit : Q; pFinal : Q; pDec : Q; pFirst : bool }.
Definition set_params (p : ara) (q : params) : ara :=
  mkAra (aC p) (aEps p) (aSat p) (aIter p) (aCall p) (aGoal p) (aStart p) (aReeval p) (aReinit p) (aNew p) (aFwd p)
        (pFirst q) (pInit q) (pDec q) (pFinal q) (aWrap p).
Definition replan (fuel : nat) (e : aenv) (clk : nat -> bool) (p : ara) (q : params) : ares (bool * list nat * Z * ara) :=
  Search fuel e clk (set_params p q).
(** araplanner.h:236 get_solution_eps. *)
Definition get_solution_eps (p : ara) : Q := aSat p.

(** araplanner.cpp:1198-1272 compute_suboptimality; None is -1.0.  Minimum of g + h over INCONS (getfirst/getnext) and over the
    heap slots 1 .. currentsize-1 (the loop test is [i < currentsize]); numeric_limits<int>::max() is None. *)
Definition omin (a : option Z) (b : Z) : option Z :=
  match a with None => Some b | Some x => Some (if b <? x then b else x) end.
Fixpoint incons_min (fuel : nat) (c : core) (s : option nat) (acc : option Z) : ares (option Z) :=
  match s with
  | None => Ok acc
  | Some s =>
    match fuel with
    | O => OOF
    | S fuel =>
      do a <- rdst c s;
      do n <- lift XList (getnext (cInc c) s);
      incons_min fuel c n (omin acc (sG a + sH a))
    end
  end.
Fixpoint open_min (c : core) (i n : nat) (acc : option Z) : ares (option Z) :=
  match n with
  | O => Ok acc
  | S n =>
    do el <- lift XHeap (rd (cOpen c) i);
    do a <- rdst c el.1;
    open_min c (S i) n (omin acc (sG a + sH a))
  end.
Definition omerge (a b : option Z) : option Z := match a with None => b | Some x => omin b x end.
Definition compute_suboptimality (p : ara) : ares (option Q) :=
  let c := aC p in
  do f <- lift XList (getfirst (cInc c));
  do im <- incons_min (csize (cInc c)) c f None;
  do om <- open_min c 1 (cur (cOpen c) - 1) None;
  match omerge om im with
  | None => Ok None
  | Some m =>
    match aGoal p with
    | None => Ok None
    | Some g =>
      do ga <- rdst c g;
      let sat := aSat p in
      (* lowerBound = DBL_MAX when overallMin is 0, else g / overallMin *)
      let b := if m =? 0 then sat
               else let lb := (inject_Z (sG ga) / inject_Z m)%Q in if Qltb lb sat then lb else sat in
      Ok (Some (if Qltb 1 b then b else 1%Q))
    end
  end.
