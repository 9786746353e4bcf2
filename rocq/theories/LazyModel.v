(** Model of class LazyARAPlanner, /repo/src/planners/lazyARA.cpp and /repo/src/include/sbpl/planners/lazyARA.h, on top of the model of CHeap.

    What is simplified:
    - A LazyARAState* is the id of its state; [kSt] is the vector states (absent = NULL or beyond the end).
      heapindex lives in the heap model.
    - The environment is a record of functions: what GetLazySuccs / GetLazyPreds / GetTrueCost / GetGoalHeuristic / GetStartHeuristic return.
      The calls have no side effect on the search (EnsureHeuristicsUpdated does nothing: heuristics are up to date).
    - A question outOfTime() (when return_first_solution is false) is one question to an arbitrary oracle [clk] (true = time left);
      max_time and repair_time therefore do not occur.
    - double eps values are exact rationals.
    - The std::priority_queue is the vector its libstdc++ implementation keeps, with that library's push_heap and pop_heap.
    - Statistics other than the eps column of stats, printing and timing are dropped; the int sum solcost does not overflow. *)
From Verif Require Import Base KeyModel HeapModel AngleModel AraModel.
From Coq Require Import QArith.
Local Open Scope Z_scope.

Inductive lexn := LHeap (* from CHeap *) | LConsistent (* "consistent state is being expanded" *).
Notation lres A := (outcome lexn A).
Definition llift {E A} (x : lexn) (r : outcome E A) : lres A :=
  match r with Ok a => Ok a | Exn _ => Exn x | UB => UB | OOF => OOF end.

(** discrete_space_information/environment.h:112-160: (state, cost, isTrueCost) triples. *)
Record lenv := mkLEnv {
  lSuccs : nat -> list (nat * Z * bool);
  lPreds : nat -> list (nat * Z * bool);
  lTrueCost : nat -> nat -> Z;
  lGoalH : nat -> Z;
  lStartH : nat -> Z
}.

(** lazyARA.h:54-72 LazyListElement. *)
Record lelem := mkLE { lePar : nat; leCost : Z; leTrue : bool }.
(** lazyARA.h:36-52 LazyARAState. *)
Record lstate := mkL {
  lV : Z; lG : Z; lH : Z;
  lClosed : Z; lRep : Z;                   (* iteration_closed, replan_number: short unsigned int *)
  lBest : option nat; lExp : option nat;   (* best_parent, expanded_best_parent *)
  lInc : bool; lList : list lelem; lTrue : bool
}.
(** The members heap, incons (head = back of the vector) and states of the planner (lazyARA.h:155-157). *)
Record lcore := mkLC { kSt : gmap nat lstate; kOpen : heap ckey; kInc : list nat }.
Definition rdl (c : lcore) (s : nat) : lres lstate := match kSt c !! s with Some a => Ok a | None => UB end.
Definition set_l (c : lcore) (s : nat) (a : lstate) : lcore := mkLC (<[s := a]> (kSt c)) (kOpen c) (kInc c).

(** * std::priority_queue<LazyListElement>: bits/stl_heap.h of libstdc++ *)
Section pq.
(** parent->v + edgeCost of an element; operator< of lazyARA.h:64-67 says x < y iff val x > val y. *)
Context (val : lelem -> Z).
(** __push_heap with topIndex 0: the hole moves up while its parent is worse than the value. *)
Fixpoint pq_up (fuel : nat) (l : list lelem) (hole : nat) (x : lelem) : list lelem :=
  match fuel with
  | O => <[hole := x]> l
  | S fuel =>
    if (0 <? hole)%nat then
      match l !! ((hole - 1) / 2)%nat with
      | Some p => if val p >? val x then pq_up fuel (<[hole := p]> l) ((hole - 1) / 2) x else <[hole := x]> l
      | None => l
      end
    else <[hole := x]> l
  end.
(** priority_queue::push: push_back and push_heap. *)
Definition pq_push (l : list lelem) (x : lelem) : list lelem := pq_up (length l) (l ++ [x]) (length l) x.
(** __adjust_heap, the loop: the hole moves down to the better child while it has two children. *)
Fixpoint pq_down (fuel : nat) (l : list lelem) (hole : nat) : list lelem * nat :=
  match fuel with
  | O => (l, hole)
  | S fuel =>
    if (hole <? (length l - 1) / 2)%nat then
      let sc := (2 * (hole + 1))%nat in
      match l !! sc, l !! (sc - 1)%nat with
      | Some a, Some b =>
        if val a >? val b then pq_down fuel (<[hole := b]> l) (sc - 1) else pq_down fuel (<[hole := a]> l) sc
      | _, _ => (l, hole)
      end
    else (l, hole)
  end.
(** __adjust_heap(first, 0, len, value): then the only child, then __push_heap. *)
Definition pq_adjust (l : list lelem) (x : lelem) : list lelem :=
  let r := pq_down (length l) l 0 in
  if Nat.even (length l) && (r.2 =? (length l - 2) / 2)%nat then
    let sc := (2 * (r.2 + 1))%nat in
    match r.1 !! (sc - 1)%nat with
    | Some b => pq_up (length l) (<[r.2 := b]> r.1) (sc - 1) x
    | None => r.1
    end
  else pq_up (length l) r.1 r.2 x.
(** priority_queue::pop: pop_heap (only if there is more than one element) and pop_back. *)
Definition pq_pop (l : list lelem) : list lelem :=
  let n := (length l - 1)%nat in
  if (n =? 0)%nat then []
  else match l !! n with Some x => pq_adjust (take n l) x | None => [] end.
End pq.

Section search.
Context (e : lenv) (fwd : bool).
Definition lnbrs (s : nat) : list (nat * Z * bool) := if fwd then lSuccs e s else lPreds e s.
(** lazyARA.cpp:141-147: GetTrueCost in the direction of the edge. *)
Definition ltcost (p s : nat) : Z := if fwd then lTrueCost e p s else lTrueCost e s p.
Definition lheur (s : nat) : Z := if fwd then lGoalH e s else lStartH e s.

(** lazyARA.cpp:74-80: new LazyARAState() (value-initialised) with replan_number = (unsigned short)-1. *)
Definition new_lstate : lstate := mkL 0 0 0 0 65535 None None false [] false.
(** lazyARA.cpp:82-104: initialise the state if it has not been for this call to replan; iteration_closed = (unsigned short)-1. *)
Definition fresh_lstate (rep : Z) (s : nat) : lstate :=
  mkL INFINITECOST INFINITECOST (lheur s) 65535 rep None None false [] true.
(** lazyARA.cpp:64-106 GetState. *)
Definition LGetState (rep : Z) (c : lcore) (s : nat) : lcore :=
  let a := default new_lstate (kSt c !! s) in
  if lRep a =? rep then set_l c s a
  else mkLC (<[s := fresh_lstate rep s]> (kSt c)) (set_idx (kOpen c) s 0) (kInc c).

(** parent->v + edgeCost: unsigned. (The parent of an element always exists.) *)
Definition lval (st : gmap nat lstate) (x : lelem) : Z :=
  match st !! lePar x with Some a => u32 (lV a + leCost x) | None => 0 end.

(** lazyARA.cpp:231-257 putStateInHeap. *)
Definition putStateInHeap (eps : Q) (iter : Z) (c : lcore) (s : nat) : lres lcore :=
  do a <- rdl c s;
  if negb (lClosed a =? iter) then
    let key := fkey eps (lG a) (lH a) in
    do h <- llift LHeap (if inheap (kOpen c) s then updateheap ckeyops (kOpen c) s key else insertheap ckeyops (kOpen c) s key);
    Ok (mkLC (kSt c) h (kInc c))
  else if negb (lInc a) then
    Ok (mkLC (<[s := mkL (lV a) (lG a) (lH a) (lClosed a) (lRep a) (lBest a) (lExp a) true (lList a) (lTrue a)]> (kSt c)) (kOpen c) (s :: kInc c))
  else Ok c.

(** lazyARA.cpp:184-229 insertLazyList; the difference of line 208 is converted to int. *)
Definition toi32 (z : Z) : Z := let u := u32 z in if u <? 2147483648 then u else u - 4294967296.
Definition insertLazyList (eps : Q) (iter : Z) (c : lcore) (s p : nat) (cost : Z) (isTrue : bool) : lres lcore :=
  do a <- rdl c s;
  do pa <- rdl c p;
  let nv := u32 (lV pa + cost) in
  if lV a <=? nv then Ok c
  else if lG a <=? nv then
    if lTrue a then Ok c
    else Ok (set_l c s (mkL (lV a) (lG a) (lH a) (lClosed a) (lRep a) (lBest a) (lExp a) (lInc a)
                            (pq_push (lval (kSt c)) (lList a) (mkLE p cost isTrue)) (lTrue a)))
  else
    do l <- (if negb isTrue && (lG a <? lV a) then
               match lBest a with
               | None => UB
               | Some bp => do ba <- rdl c bp;
                            Ok (pq_push (lval (kSt c)) (lList a) (mkLE bp (toi32 (lG a - lV ba)) (lTrue a)))
               end
             else Ok (lList a));
    putStateInHeap eps iter
      (set_l c s (mkL (lV a) nv (lH a) (lClosed a) (lRep a) (Some p) (lExp a) (lInc a) (if isTrue then [] else l) isTrue)) s.

(** lazyARA.cpp:108-128 ExpandState. *)
Fixpoint expand_all (eps : Q) (iter rep : Z) (s : nat) (ns : list (nat * Z * bool)) (c : lcore) : lres lcore :=
  match ns with
  | [] => Ok c
  | (t, cost, b) :: ns => do c <- insertLazyList eps iter (LGetState rep c t) t s cost b; expand_all eps iter rep s ns c
  end.
Definition ExpandState (eps : Q) (iter rep : Z) (c : lcore) (s : nat) : lres lcore := expand_all eps iter rep s (lnbrs s) c.

(** lazyARA.cpp:160-182 getNextLazyElement. *)
Definition getNextLazyElement (eps : Q) (iter : Z) (c : lcore) (s : nat) : lres lcore :=
  do a <- rdl c s;
  match lList a with
  | [] => Ok (set_l c s (mkL (lV a) INFINITECOST (lH a) (lClosed a) (lRep a) None (lExp a) (lInc a) [] true))
  | x :: _ =>
    do pa <- rdl c (lePar x);
    putStateInHeap eps iter
      (set_l c s (mkL (lV a) (u32 (lV pa + leCost x)) (lH a) (lClosed a) (lRep a) (Some (lePar x)) (lExp a) (lInc a)
                      (if leTrue x then [] else pq_pop (lval (kSt c)) (lList a)) (leTrue x))) s
  end.
(** lazyARA.cpp:134-156 EvaluateState. *)
Definition EvaluateState (eps : Q) (iter : Z) (c : lcore) (s : nat) : lres lcore :=
  do a <- rdl c s;
  match lBest a with
  | None => UB
  | Some p =>
    do c <- getNextLazyElement eps iter c s;
    let tc := ltcost p s in
    if tc >? 0 then insertLazyList eps iter c s p tc true else Ok c
  end.

(** lazyARA.cpp:266-306: the loop of ImprovePath.  [first]: return_first_solution (never out of time, 407-411). *)
Fixpoint limprove_loop (fuel : nat) (first : bool) (clk : nat -> bool) (eps : Q) (iter rep : Z) (goal : nat) (c : lcore) (n : nat)
  : lres (lcore * nat) :=
  match fuel with
  | O => OOF
  | S fuel =>
    do ga <- rdl c goal;
    do mk <- llift LHeap (getminkeyheap ckeyops (kOpen c));
    if negb (emptyheap (kOpen c)) && (k0 mk <? INFINITECOST) && ((lG ga >? k0 mk) || negb (lTrue ga)) && (lV ga >? k0 mk) then
      if first || clk n then
        let n := if first then n else S n in
        do r <- llift LHeap (deleteminheap ckeyops (kOpen c));
        let s := r.1 in
        let c := mkLC (kSt c) r.2 (kInc c) in
        do a <- rdl c s;
        if lV a =? lG a then Exn LConsistent
        else
          do c <- (if lTrue a then
                     ExpandState eps iter rep
                       (set_l c s (mkL (lG a) (lG a) (lH a) iter (lRep a) (lBest a) (lBest a) (lInc a) (lList a) (lTrue a))) s
                   else EvaluateState eps iter c s);
          limprove_loop fuel first clk eps iter rep goal c n
      else Ok (c, S n)
    else Ok (c, n)
  end.
(** lazyARA.cpp:261-327 ImprovePath: 1, 0 or 2. *)
Definition LImprovePath (fuel : nat) (first : bool) (clk : nat -> bool) (eps : Q) (iter rep : Z) (goal : nat) (c : lcore) (n : nat)
  : lres (Z * lcore * nat) :=
  do r <- limprove_loop fuel first clk eps iter rep goal c n;
  let c := r.1 in
  do mk <- llift LHeap (getminkeyheap ckeyops (kOpen c));
  do a <- rdl c goal;
  let a := if lV a <? lG a then mkL (lV a) (lV a) (lH a) (lClosed a) (lRep a) (lExp a) (lExp a) (lInc a) (lList a) (lTrue a) else a in
  let c := set_l c goal a in
  if (lG a =? INFINITECOST) && (emptyheap (kOpen c) || (k0 mk >=? INFINITECOST)) then Ok (0, c, r.2)
  else if negb (emptyheap (kOpen c)) && (lG a >? k0 mk) then Ok (2, c, r.2)
  else
    let a := if lG a <? lV a then mkL (lG a) (lG a) (lH a) (lClosed a) (lRep a) (lBest a) (lBest a) (lInc a) (lList a) (lTrue a) else a in
    Ok (1, set_l c goal a, r.2).

(** lazyARA.cpp:353-386: the loop of GetSearchPath; the path so far is in [acc]. *)
Fixpoint lfollow (fuel : nat) (c : lcore) (target : nat) (s : nat) (acc : list nat) (cost : Z) : lres (list nat * Z) :=
  match fuel with
  | O => OOF
  | S fuel =>
    if (s =? target)%nat then Ok (acc, cost)
    else
      do a <- rdl c s;
      match lExp a with
      | None => Ok (acc, cost)
      | Some p =>
        if lV a =? INFINITECOST then Ok (acc, cost)
        else
          let act := foldl (fun m x => if (x.1.1 =? s)%nat && (x.1.2 <? m) then x.1.2 else m) INFINITECOST (lnbrs p) in
          lfollow fuel c target p (acc ++ [p]) (cost + act)
      end
  end.
(** lazyARA.cpp:329-405 GetSearchPath. *)
Definition LGetSearchPath (c : lcore) (start goal : nat) : lres (list nat * Z * lcore) :=
  do a <- rdl c goal;
  let pretend := match lExp a with None => true | Some _ => false end in
  let c := if pretend then set_l c goal (mkL (lG a) (lG a) (lH a) (lClosed a) (lRep a) (lBest a) (lBest a) (lInc a) (lList a) (lTrue a)) else c in
  do r <- lfollow (S (S (size (kSt c)))) c start goal [goal] 0;
  do a <- rdl c goal;
  let c := if pretend then set_l c goal (mkL INFINITECOST (lG a) (lH a) (lClosed a) (lRep a) (lBest a) None (lInc a) (lList a) (lTrue a)) else c in
  Ok (if fwd then reverse r.1 else r.1, r.2, c).

(** lazyARA.cpp:531-552: the vector incons is emptied from the back into the heap. *)
Fixpoint incons_to_open (eps : Q) (is_ : list nat) (c : lcore) : lres lcore :=
  match is_ with
  | [] => Ok c
  | s :: is_ =>
    do a <- rdl c s;
    do h <- llift LHeap (insertheap ckeyops (kOpen c) s (fkey eps (lG a) (lH a)));
    incons_to_open eps is_
      (mkLC (<[s := mkL (lV a) (lG a) (lH a) (lClosed a) (lRep a) (lBest a) (lExp a) false (lList a) (lTrue a)]> (kSt c)) h is_)
  end.
(** lazyARA.cpp:523-561 prepareNextSearchIteration (eps is decreased by the caller; search_iteration++ too). *)
Definition lrekey (eps : Q) (c : lcore) : lres lcore :=
  let f s (k : ckey) := match kSt c !! s with Some a => mkKey (k0 (fkey eps (lG a) (lH a))) (k1 k) | None => k end in
  do h <- llift LHeap (rekey f (kOpen c));
  do h <- llift LHeap (makeheap ckeyops h);
  Ok (mkLC (kSt c) h (kInc c)).
Definition prepareNext (eps : Q) (c : lcore) : lres lcore :=
  do c <- incons_to_open eps (kInc c) c; lrekey eps c.
End search.

(** ReplanParams (planner.h:77-136). *)
Record lparams := mkLP { xInit : Q; xFinal : Q; xDec : Q; xFirst : bool }.
(** The planner object (lazyARA.h:153-181). *)
Record lazy := mkLazy {
  zC : lcore; zRep : Z; zGoal : option nat; zStart : option nat; (* goal_state_id, start_state_id; None = -1 *)
  zFwd : bool; zStats : list Q; zPar : lparams
}.
(** lazyARA.cpp:34-47 constructor (ReplanParams(0.0): planner.h:84-92). *)
Definition new_lazy (fwd : bool) : lazy :=
  mkLazy (mkLC ∅ (new_heap HEAPSIZE_INIT) []) 0 None None fwd [] (mkLP 5 1 (2 # 10) false).
(** lazyARA.cpp:54-65 freeMemory, called by force_planning_from_scratch_and_free_memory (lazyARA.h:94-98). *)
Definition lfree (p : lazy) : lres lazy :=
  do h <- llift LHeap (makeemptyheap (kOpen (zC p)));
  Ok (mkLazy (mkLC ∅ h []) (zRep p) (zGoal p) (zStart p) (zFwd p) [] (zPar p)).
(** lazyARA.cpp:634-655 set_goal, set_start. *)
Definition lset_goal (p : lazy) (s : nat) : lazy :=
  if zFwd p then mkLazy (zC p) (zRep p) (Some s) (zStart p) (zFwd p) (zStats p) (zPar p)
  else mkLazy (zC p) (zRep p) (zGoal p) (Some s) (zFwd p) (zStats p) (zPar p).
Definition lset_start (p : lazy) (s : nat) : lazy :=
  if zFwd p then mkLazy (zC p) (zRep p) (zGoal p) (Some s) (zFwd p) (zStats p) (zPar p)
  else mkLazy (zC p) (zRep p) (Some s) (zStart p) (zFwd p) (zStats p) (zPar p).
(** lazyARA.h:103-112 set_search_mode, set_initialsolution_eps. *)
Definition lset_mode (p : lazy) (b : bool) : lazy := mkLazy (zC p) (zRep p) (zGoal p) (zStart p) (zFwd p) (zStats p)
  (mkLP (xInit (zPar p)) (xFinal (zPar p)) (xDec (zPar p)) b).
Definition lset_eps (p : lazy) (q : Q) : lazy := mkLazy (zC p) (zRep p) (zGoal p) (zStart p) (zFwd p) (zStats p)
  (mkLP q (xFinal (zPar p)) (xDec (zPar p)) (xFirst (zPar p))).
(** lazyARA.h:128-131 get_solution_eps (= get_final_epsilon). *)
Definition lsolution_eps (p : lazy) : Q := match last (zStats p) with Some q => q | None => (-1)%Q end.

(** lazyARA.cpp:425-465 initializeSearch: start_state and goal_state as the search sees them are results; line 461: the key is eps * h
    converted to long. *)
Definition linit (e : lenv) (fwd : bool) (q : lparams) (rep : Z) (gid sid : nat) (c : lcore) : lres (lcore * nat * nat) :=
  do h <- llift LHeap (makeemptyheap (kOpen c));
  let c := mkLC (kSt c) h [] in
  let start := if fwd then sid else gid in
  let goal := if fwd then gid else sid in
  let c := LGetState e fwd rep c gid in
  let c := LGetState e fwd rep c sid in
  do a <- rdl c start;
  let c := set_l c start (mkL (lV a) 0 (lH a) (lClosed a) (lRep a) (lBest a) (lExp a) (lInc a) (lList a) (lTrue a)) in
  do h <- llift LHeap (insertheap ckeyops (kOpen c) start (mkKey (Qtrunc (xInit q * inject_Z (lH a))) 0));
  Ok (mkLC (kSt c) h (kInc c), start, goal).

(** lazyARA.cpp:475-508: the main loop of Search. Result: true = go on to line 510, false = "Solution does not exist". *)
Fixpoint lsearch_loop (fuel : nat) (e : lenv) (fwd : bool) (clk : nat -> bool) (q : lparams) (rep : Z) (goal : nat)
  (eps sat : Q) (iter : Z) (c : lcore) (st : list Q) (n : nat) : lres (bool * lcore * list Q * nat) :=
  match fuel with
  | O => OOF
  | S fuel' =>
    if Qltb (xFinal q) sat then
      if xFirst q || clk n then
        let n := if xFirst q then n else S n in
        do r <- LImprovePath e fwd fuel (xFirst q) clk eps iter rep goal c n;
        let ret := r.1.1 in let c := r.1.2 in let n := r.2 in
        let sat := if ret =? 1 then eps else sat in
        let st := st ++ [sat] in
        if ret =? 0 then Ok (false, c, st, n)
        else if xFirst q || (ret =? 2) then Ok (true, c, st, n)
        else
          let eps := (eps - xDec q)%Q in
          let eps := if Qltb eps (xFinal q) then xFinal q else eps in
          do c <- prepareNext eps c;
          lsearch_loop fuel' e fwd clk q rep goal eps sat (u16 (iter + 1)) c st n
      else Ok (true, c, st, S n)
    else Ok (true, c, st, n)
  end.

(** lazyARA.cpp:467-521 Search and 599-632 replan(vector<int>*, ReplanParams, int* ).
    Result: return value (1 = true), *solution_stateIDs_V, *solcost (None: the out-parameters are not written), and the planner. *)
Definition lreplan (fuel : nat) (e : lenv) (clk : nat -> bool) (p : lazy) (q : lparams) : lres (bool * option (list nat * Z) * lazy) :=
  match zGoal p, zStart p with
  | Some gid, Some sid =>
    let rep := u16 (zRep p + 1) in
    do i <- linit e (zFwd p) q rep gid sid (zC p);
    let start := i.1.2 in let goal := i.2 in
    do r <- lsearch_loop fuel e (zFwd p) clk q rep goal (xInit q) (inject_Z INFINITECOST) 0 i.1.1 [] 0;
    let c := r.1.1.2 in
    let p' c := mkLazy c rep None None (zFwd p) r.1.2 q in
    if (r.1.1.1 : bool) then
      do a <- rdl c goal;
      if lG a =? INFINITECOST then Ok (false, Some ([], 0), p' c)
      else
        do x <- LGetSearchPath e (zFwd p) c start goal;
        Ok (true, Some (x.1.1, x.1.2), p' x.2)
    else Ok (false, Some ([], 0), p' c)
  | _, _ => Ok (false, None, mkLazy (zC p) (zRep p) (zGoal p) (zStart p) (zFwd p) (zStats p) q)
  end.
