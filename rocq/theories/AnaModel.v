(** Model of class anaPlanner, /repo/src/planners/ANAplanner.cpp and /repo/src/include/sbpl/planners/ANAplanner.h, on top of the
    model of CHeap.  The parts whose text is the same as in araplanner.cpp are the definitions of AraModel (said at each place).

    What is simplified:
    - CMDPSTATE* and anaState* are the state's id; [cSt] is searchMDP plus environment_->StateID2IndexMapping.
    - The environment is the record [aenv] of AraModel (what GetSuccs / GetPreds / the heuristics return).
    - Every evaluation of the clock condition "clock() - TimeStarted < ..." is one question to an arbitrary oracle [clk];
      [nclk] counts the questions.  MaxNumofSecs therefore does not occur.
    - Members that are written and never read are dropped: eps (and finitial_eps, minkey), bReevaluatefvals,
      bNewSearchIteration, numofexpands, MaxMemoryCounter; printing and the #if DEBUG code are dropped too, and with them the return value of
      ImprovePath and the solcost of GetSearchPath, which are only printed.
    - doubles are exact: e values are rationals; the quotients G / (g + h) are pairs (numerator, denominator), because the
      denominator may be 0 (the C++ value is then inf or nan, and the comparisons below agree with IEEE's on them).
    - callnumber and searchiteration are 16-bit counters ([u16]). *)
From Verif Require Import Base KeyModel HeapModel ListModel AngleModel AraModel.
From Coq Require Import QArith.
Local Open Scope Z_scope.

(** A double given as a quotient of non-negative integers, and [>] on such. *)
Definition ratio : Type := Z * Z.
Definition rgt (x y : ratio) : bool := y.1 * x.2 <? x.1 * y.2.

(** ANAplanner.h:82-101 anaSEARCHSTATESPACE and the member variables of anaPlanner (ANAplanner.h:180-200). *)
Record ana := mkAna {
  nC : core;                       (* states and heap; the INCONS list of [core] is not used *)
  nG : Z;                          (* unsigned int G *)
  nSat : ratio;                    (* double eps_satisfied *)
  nIter : Z; nCall : Z;            (* searchiteration, callnumber: short unsigned int *)
  nGoal : option nat; nStart : option nat;
  nReinit : bool;
  nFwd : bool; nFirst : bool      (* bforwardsearch, bsearchuntilfirstsolution *)
}.
Definition INFR : ratio := (INFINITECOST, 1).

(** ANAplanner.cpp:210-232 get_e_value, as a function of G and the state's g and h. *)
Definition e_value (G g h : Z) : Q :=
  if h =? 0 then (if g >=? G then 0%Q else inject_Z INFINITECOST)
  else (inject_Z (G - g) / inject_Z h)%Q.
(** [key.key[0] = (long)-get_e_value(...)]: truncation toward zero; key[1] stays 0 (CKey's constructor). *)
Definition e_key (G g h : Z) : ckey := mkKey (Qtrunc (- e_value G g h)) 0.

Section search.
Context (e : aenv) (fwd : bool).

(** ANAplanner.cpp:235-266 UpdatePreds and 269-305 UpdateSuccs: one round of the loop.  GetState / CreateState (68-114),
    ComputeHeuristic (118-143), InitializeSearchStateInfo and ReInitializeSearchStateInfo (146-202) are as in AraModel.  All
    sums are unsigned. *)
Definition arelax (G iter call : Z) (s : nat) (c : core) (tc : nat * Z) : ares core :=
  let t := tc.1 in let cost := tc.2 in
  do c <- GetState e fwd call true c t;
  do c <- refresh e fwd call true c t;
  do a <- rdst c t;
  do b <- rdst c s;
  let ng := u32 (sG b + cost) in
  if (sG a >? ng) && (u32 (ng + sH a) <? G) then
    let a' := if fwd then mkA (sV a) ng (sIter a) (sCall a) (Some s) (sNext a) (sCostNext a) (sH a)
              else mkA (sV a) ng (sIter a) (sCall a) (sPred a) (Some s) cost (sH a) in
    let c := set_st c t a' in
    let key := e_key G ng (sH a) in
    do h <- lift XHeap (if inheap (cOpen c) t then updateheap ckeyops (cOpen c) t key
                        else insertheap ckeyops (cOpen c) t key);
    Ok (mkCore (cSt c) h (cInc c))
  else Ok c.
Fixpoint arelax_all (G iter call : Z) (s : nat) (ns : list (nat * Z)) (c : core) : ares core :=
  match ns with
  | [] => Ok c
  | tc :: ns => do c <- arelax G iter call s c tc; arelax_all G iter call s ns c
  end.

(** ANAplanner.cpp:341-430 the while loop of ImprovePath; the result is the new search data, G and the number of clock
    questions.  Line 353 compares the state with the goal, 354 sets G and 360 returns; 402-413 expand; 420 sets G. *)
Fixpoint aimprove_loop (fuel : nat) (clk : nat -> bool) (iter call : Z) (goal : nat) (c : core) (G : Z) (nclk : nat)
  : ares (core * Z * nat) :=
  match fuel with
  | O => OOF
  | S fuel =>
    if negb (emptyheap (cOpen c)) then
      if clk nclk then
        do r <- lift XHeap (deleteminheap ckeyops (cOpen c));
        let s := r.1 in
        let c := mkCore (cSt c) r.2 (cInc c) in
        do a <- rdst c s;
        if (s =? goal)%nat then Ok (c, sG a, S nclk)
        else
          let c := set_st c s (mkA (sG a) (sG a) iter (sCall a) (sPred a) (sNext a) (sCostNext a) (sH a)) in
          do c <- arelax_all G iter call s (nbrs e fwd s) c;
          do ga <- rdst c goal;
          aimprove_loop fuel clk iter call goal c (sG ga) (S nclk)
      else Ok (c, G, S nclk)
    else Ok (c, G, nclk)
  end.
(** ANAplanner.cpp:315-457 ImprovePath. *)
Definition aImprovePath (fuel : nat) (clk : nat -> bool) (iter call : Z) (goal : option nat) (c : core) (G : Z) (nclk : nat)
  : ares (core * Z * nat) :=
  match goal with
  | None => Exn XNoGoal
  | Some g =>
    do c <- refresh e fwd call true c g;
    aimprove_loop fuel clk iter call g c G nclk
  end.

(** ANAplanner.cpp:927-947 the for loop over the heap in Search: j, epsprime, eps_satisfied.  [fuel] bounds the rounds: each
    either deletes an element or advances j. *)
Fixpoint prune_loop (fuel : nat) (G : Z) (c : core) (j : nat) (ep sat : ratio) : ares (core * ratio) :=
  match fuel with
  | O => OOF
  | S fuel =>
    if (j <=? cur (cOpen c))%nat then
      do el <- lift XHeap (rd (cOpen c) j);
      let s := el.1 in
      do a <- rdst c s;
      let te : ratio := (G, u32 (sG a + sH a)) in
      let ep := if rgt te ep then te else ep in
      if Qle_bool (e_value G (sG a) (sH a)) 1 then
        do h <- lift XHeap (deleteheap_unsafe (cOpen c) s);
        prune_loop fuel G (mkCore (cSt c) h (cInc c)) j ep ep
      else
        do h <- lift XHeap (updateheap_unsafe ckeyops (cOpen c) s (e_key G (sG a) (sH a)));
        prune_loop fuel G (mkCore (cSt c) h (cInc c)) (S j) ep ep
    else Ok (c, sat)
  end.
(** The same with epsprime = 1.0 at the beginning, and open->makeheap() (948). *)
Definition prune (G : Z) (c : core) (sat : ratio) : ares (core * ratio) :=
  do r <- prune_loop (S (cur (cOpen c))) G c 1 (1, 1) sat;
  do h <- lift XHeap (makeheap ckeyops (cOpen r.1));
  Ok (mkCore (cSt r.1) h (cInc r.1), r.2).
End search.

(** ANAplanner.cpp:543-584 ReInitializeSearchStateSpace. *)
Definition aReInitializeSearchStateSpace (e : aenv) (p : ana) : ares ana :=
  let call := u16 (nCall p + 1) in
  do h <- lift XHeap (makeemptyheap (cOpen (nC p)));
  match nStart p with
  | Some s =>
    let gs := bool_decide (is_Some (nGoal p)) in
    do c <- refresh e (nFwd p) call gs (mkCore (cSt (nC p)) h (cInc (nC p))) s;
    do a <- rdst c s;
    let c := set_st c s (mkA (sV a) 0 (sIter a) (sCall a) (sPred a) (sNext a) (sCostNext a) (sH a)) in
    do h <- lift XHeap (insertheap ckeyops (cOpen c) s (e_key INFINITECOST 0 (sH a)));
    Ok (mkAna (mkCore (cSt c) h (cInc c)) INFINITECOST INFR 0 call (nGoal p) (nStart p) false (nFwd p) (nFirst p))
  | None => UB                                             (* dereference of a NULL searchstartstate *)
  end.

(** ANAplanner.cpp:21-47 constructor with 483-501 CreateSearchStateSpace and 587-610 InitializeSearchStateSpace. *)
Definition new_ana (fwd : bool) : ana :=
  mkAna (mkCore ∅ (new_heap HEAPSIZE_INIT) new_list) INFINITECOST INFR 0 0 None None true fwd false.

(** ANAplanner.cpp:612-638 SetSearchGoalState; the loop over searchMDP (626-631) is Reevaluatehvals of AraModel. *)
Definition aSetSearchGoalState (e : aenv) (p : ana) (id : nat) : ares ana :=
  if bool_decide (nGoal p = Some id) then Ok p
  else
    do c <- GetState e (nFwd p) (nCall p) (bool_decide (is_Some (nGoal p))) (nC p) id;
    Ok (mkAna (Reevaluatehvals e (nFwd p) c) (nG p) INFR (nIter p) (nCall p) (Some id) (nStart p) (nReinit p) (nFwd p) (nFirst p)).
(** ANAplanner.cpp:640-650 SetSearchStartState. *)
Definition aSetSearchStartState (e : aenv) (p : ana) (id : nat) : ares ana :=
  do c <- GetState e (nFwd p) (nCall p) (bool_decide (is_Some (nGoal p))) (nC p) id;
  Ok (mkAna c (nG p) (nSat p) (nIter p) (nCall p) (nGoal p) (Some id)
            (if bool_decide (nStart p = Some id) then nReinit p else true) (nFwd p) (nFirst p)).
(** ANAplanner.cpp:1045-1086 set_goal, set_start. *)
Definition aset_goal (e : aenv) (p : ana) (id : nat) : ares ana :=
  if nFwd p then aSetSearchGoalState e p id else aSetSearchStartState e p id.
Definition aset_start (e : aenv) (p : ana) (id : nat) : ares ana :=
  if nFwd p then aSetSearchStartState e p id else aSetSearchGoalState e p id.
(** ANAplanner.cpp:1088-1105 costs_changed (both overloads) and force_planning_from_scratch. *)
Definition ascratch (p : ana) : ana :=
  mkAna (nC p) (nG p) (nSat p) (nIter p) (nCall p) (nGoal p) (nStart p) true (nFwd p) (nFirst p).
(** ANAplanner.cpp:1107-1114 set_search_mode. *)
Definition aset_search_mode (p : ana) (b : bool) : ana :=
  mkAna (nC p) (nG p) (nSat p) (nIter p) (nCall p) (nGoal p) (nStart p) (nReinit p) (nFwd p) b.

(** ANAplanner.cpp:778-858 GetSearchPath; ReconstructPath (652-701) and the loop that follows bestnextstate have the text of
    araplanner.cpp and are [reconstruct] and [follow] of AraModel. *)
Definition aGetSearchPath (e : aenv) (p : ana) : ares (list nat * core) :=
  match nStart p, nGoal p with
  | Some s, Some g =>
    if nFwd p then
      do c <- reconstruct (S (eSize e)) s g (nC p);
      do path <- follow (S (eSize e)) g s c [s];
      Ok (path, c)
    else
      do path <- follow (S (eSize e)) s g (nC p) [g];
      Ok (path, nC p)
  | _, _ => UB
  end.

(** ANAplanner.cpp:891-974 the main loop of Search; eps_satisfied > ana_FINAL_EPS, which is 1.0 (ANAplanner.h:24). *)
Definition aworth (p : ana) : bool := negb (emptyheap (cOpen (nC p))) && rgt (nSat p) (1, 1).
Definition around (fuel : nat) (e : aenv) (clk : nat -> bool) (p : ana) (nclk : nat) : ares (ana * nat) :=
  let iter := u16 (nIter p + 1) in
  do r <- aImprovePath e (nFwd p) fuel clk iter (nCall p) (nGoal p) (nC p) (nG p) nclk;
  do q <- prune r.1.2 r.1.1 (nSat p);
  Ok (mkAna q.1 r.1.2 q.2 iter (nCall p) (nGoal p) (nStart p) (nReinit p) (nFwd p) (nFirst p), r.2).
Fixpoint asearch_loop (fuel fuel2 : nat) (e : aenv) (clk : nat -> bool) (p : ana) (nclk : nat) : ares (ana * nat) :=
  match fuel with
  | O => OOF
  | S fuel =>
    if aworth p then
      if clk nclk then
        do r <- around fuel2 e clk p (S nclk);
        let p := r.1 in
        if nFirst p then Ok r
        else
          match nGoal p with
          | None => UB
          | Some g =>
            do ga <- rdst (nC p) g;
            if sG ga =? INFINITECOST then Ok r else asearch_loop fuel fuel2 e clk p r.2
          end
      else Ok (p, S nclk)
    else Ok (p, nclk)
  end.

(** ANAplanner.cpp:860-1005 Search (replan always passes bOptimalSolution = false).  Result: found?, path, PathCost. *)
Definition with_ncore (p : ana) (c : core) : ana :=
  mkAna c (nG p) (nSat p) (nIter p) (nCall p) (nGoal p) (nStart p) (nReinit p) (nFwd p) (nFirst p).
Definition aSearch (fuel : nat) (e : aenv) (clk : nat -> bool) (p : ana) : ares (bool * list nat * Z * ana) :=
  do p <- (if nReinit p then aReInitializeSearchStateSpace e p else Ok p);
  do r <- asearch_loop fuel fuel e clk p 0;
  let p := r.1 in
  match nGoal p with
  | None => UB
  | Some g =>
    do ga <- rdst (nC p) g;
    if sG ga =? INFINITECOST then Ok (false, [], sG ga, p)
    else
      do r <- aGetSearchPath e p;
      Ok (true, r.1, sG ga, with_ncore p r.2)
  end.
(** ANAplanner.cpp:1010-1043 replan: result value (int)bFound, solution ids, solution cost (the limit in seconds is in [clk]). *)
Definition areplan := aSearch.
(** ANAplanner.h:156 get_solution_eps. *)
Definition aget_solution_eps (p : ana) : ratio := nSat p.
