(** Model of class MHAPlanner (multi-heuristic A-star), /repo/src/planners/mhaplanner.cpp and
    /repo/src/include/sbpl/planners/mhaplanner.h, on top of the model of CHeap.

    What is simplified:
    - An MHASearchState* is the id of its state; [mSt] is m_search_states plus environment_->StateID2IndexMapping (absent = index -1).
      open_state of heuristic i is the same id in heap i (mhaplanner.cpp:589-594 maps back through the hijacked listelem[0]).
    - The environment and the heuristic objects are a record of functions: what GetSuccs and the GetGoalHeuristic of heuristic i return
      (0 = anchor), and the size of StateID2IndexMapping.  The calls have no side effect on the search.
    - "m_params.max_time > 0.0 && m_elapsed >= m_params.max_time" is one question to an arbitrary oracle [clk] (true = time left).
    - double values are exact rationals; the conversions to int are explicit.
    - assert() is an exception; printing and the statistics other than m_num_expansions and m_eps_satisfied are dropped. *)
From Verif Require Import Base KeyModel HeapModel AngleModel AraModel.
From Coq Require Import QArith.
Local Open Scope Z_scope.

Inductive mexn := MHeap (* from CHeap *) | MAssert (* a failed assert *).
Notation mres A := (outcome mexn A).
Definition mlift {E A} (x : mexn) (r : outcome E A) : mres A :=
  match r with Ok a => Ok a | Exn _ => Exn x | UB => UB | OOF => OOF end.

(** The environment (discrete_space_information/environment.h) and the heuristics handed to the constructor. *)
Record menv := mkMEnv { meSize : nat; meSuccs : nat -> list (nat * Z); meH : nat -> nat -> Z }.

(** mhaplanner.h:37-56 MHASearchState; heapindex lives in the heap model. *)
Record mstate := mkM { mCall : Z; mG : Z; mBp : option nat; mAnc : bool; mAdd : bool; mHs : list Z }.
(** What a search changes: m_search_states and m_open[0..m_hcount]. *)
Record mcore := mkMC { mSt : gmap nat mstate; mOpen : list (heap ckey) }.

(** Search parameters: ReplanParams (planner.h) as used here. *)
Record mparams := mkMP { qInit : Q; qFinal : Q; qDec : Q; qFirst : bool; qTime : Q }.
(** mhaplanner.h:147-178 the members. *)
Record mha := mkMha {
  hN : nat;                 (* m_hcount *)
  hC : mcore;
  hCall : Z;                (* m_call_number *)
  hStart : option nat; hGoal : option nat;
  hPar : mparams;           (* m_params *)
  hEps2 : Q;                (* m_initial_eps_mha *)
  hMax : Z;                 (* m_max_expansions *)
  hSat : Q;                 (* m_eps_satisfied *)
  hExp : Z                  (* m_num_expansions *)
}.

(** mhaplanner.cpp:44-87 constructor. *)
Definition new_mha (hcount : nat) : mha :=
  mkMha hcount (mkMC ∅ (replicate (S hcount) (new_heap HEAPSIZE_INIT))) 0 None None (mkMP 1 1 (2 # 10) false 0) 1 0 (inject_Z INFINITECOST) 0.

Section search.
Context (e : menv).

Definition heap_at (c : mcore) (i : nat) : mres (heap ckey) := match mOpen c !! i with Some h => Ok h | None => UB end.
Definition set_heap (c : mcore) (i : nat) (h : heap ckey) : mcore := mkMC (mSt c) (<[i := h]> (mOpen c)).
Definition set_mst (c : mcore) (s : nat) (a : mstate) : mcore := mkMC (<[s := a]> (mSt c)) (mOpen c).
(** Reading g, bp and the flags of a search state: undefined when the state was allocated (malloc) but never initialised by reinit_state. *)
Definition rdm (c : mcore) (s : nat) : mres mstate :=
  match mSt c !! s with Some a => if mCall a =? 0 then UB else Ok a | None => UB end.

(** mhaplanner.cpp:596-604 compute_heuristic, for all heuristics 0..hcount. *)
Definition heurs (hcount : nat) (s : nat) : list Z := (fun i => meH e i s) <$> seq 0 (S hcount).
(** heapindex = 0 in all open lists. *)
Definition clear_indices (c : mcore) (s : nat) : mcore := mkMC (mSt c) ((fun h => set_idx h s 0) <$> mOpen c).

(** mhaplanner.cpp:428-452 get_state with 476-492 init_state (g and bp stay uninitialised: call number 0, see [rdm]). *)
Definition get_state (hcount : nat) (c : mcore) (s : nat) : mres mcore :=
  if (meSize e <=? s)%nat then Exn MAssert
  else match mSt c !! s with
       | Some _ => Ok c
       | None => Ok (set_mst (clear_indices c s) s (mkM 0 0 None false false (heurs hcount s)))
       end.
(** mhaplanner.cpp:494-509 reinit_state. *)
Definition reinit_state (hcount : nat) (call : Z) (c : mcore) (s : nat) : mres mcore :=
  match mSt c !! s with
  | None => UB
  | Some a => Ok (if mCall a =? call then c
                  else set_mst (clear_indices c s) s (mkM call INFINITECOST None false false (heurs hcount s)))
  end.

(** mhaplanner.cpp:523-526 compute_key (the double sum is converted to int). *)
Definition compute_key (eps : Q) (a : mstate) (i : nat) : mres Z :=
  match mHs a !! i with Some h => Ok (toint (inject_Z (mG a) + eps * inject_Z h)) | None => UB end.
(** mhaplanner.cpp:606-609 get_minf. *)
Definition get_minf (c : mcore) (i : nat) : mres Z :=
  do h <- heap_at c i; do k <- mlift MHeap (getminkeyheap ckeyops h); Ok (k0 k).
(** mhaplanner.cpp:611-622 insert_or_update. *)
Definition insert_or_update (c : mcore) (s : nat) (i : nat) (f : Z) : mres mcore :=
  do h <- heap_at c i;
  do h <- mlift MHeap (if inheap h s then updateheap ckeyops h s (mkKey f 0) else insertheap ckeyops h s (mkKey f 0));
  Ok (set_heap c i h).

(** mhaplanner.cpp:570-580: the loop over the additional heuristics in expand. *)
Fixpoint update_adds (eps eps2 : Q) (fanchor : Z) (s : nat) (is_ : list nat) (c : mcore) : mres mcore :=
  match is_ with
  | [] => Ok c
  | i :: is_ =>
    do a <- rdm c s;
    do fn <- compute_key eps a i;
    do c <- (if Qle_bool (inject_Z fn) (eps2 * inject_Z fanchor) then insert_or_update c s i fn else Ok c);
    update_adds eps eps2 fanchor s is_ c
  end.
(** mhaplanner.cpp:553-584: one round of the loop over the successors in expand. *)
Definition mrelax (hcount : nat) (call : Z) (eps eps2 : Q) (s : nat) (c : mcore) (tc : nat * Z) : mres mcore :=
  let t := tc.1 in
  do c <- get_state hcount c t;
  do c <- reinit_state hcount call c t;
  do b <- rdm c s;
  do a <- rdm c t;
  let new_g := mG b + tc.2 in
  if new_g <? mG a then
    let a := mkM (mCall a) new_g (Some s) (mAnc a) (mAdd a) (mHs a) in
    let c := set_mst c t a in
    if negb (mAnc a) then
      do fanchor <- compute_key eps a 0;
      do c <- insert_or_update c t 0 fanchor;
      if negb (mAdd a) then update_adds eps eps2 fanchor t (seq 1 hcount) c else Ok c
    else Ok c
  else Ok c.
Fixpoint mrelax_all (hcount : nat) (call : Z) (eps eps2 : Q) (s : nat) (ns : list (nat * Z)) (c : mcore) : mres mcore :=
  match ns with
  | [] => Ok c
  | tc :: ns => do c <- mrelax hcount call eps eps2 s c tc; mrelax_all hcount call eps eps2 s ns c
  end.
(** mhaplanner.cpp:541-546: remove s from all open lists. *)
Fixpoint remove_all (s : nat) (is_ : list nat) (c : mcore) : mres mcore :=
  match is_ with
  | [] => Ok c
  | i :: is_ =>
    do h <- heap_at c i;
    do c <- (if inheap h s then do h <- mlift MHeap (deleteheap ckeyops h s); Ok (set_heap c i h) else Ok c);
    remove_all s is_ c
  end.
(** mhaplanner.cpp:528-587 expand. *)
Definition expand (hcount : nat) (call : Z) (eps eps2 : Q) (s : nat) (hidx : nat) (c : mcore) : mres mcore :=
  do a <- rdm c s;
  if mAdd a && mAnc a then Exn MAssert
  else
    let a := if (hidx =? 0)%nat then mkM (mCall a) (mG a) (mBp a) true (mAdd a) (mHs a)
             else mkM (mCall a) (mG a) (mBp a) (mAnc a) true (mHs a) in
    let c := set_mst c s a in
    do c <- remove_all s (seq 0 (S hcount)) c;
    do c <- mrelax_all hcount call eps eps2 s (meSuccs e s) c;
    do a <- rdm c s;
    if mAdd a || mAnc a then Ok c else Exn MAssert.

(** mhaplanner.cpp:624-639 extract_path: follows bp from the goal until it is NULL; the path is reversed at the end. *)
Fixpoint extract (fuel : nat) (c : mcore) (s : nat) (path : list nat) (cost : Z) : mres (list nat * Z) :=
  match fuel with
  | O => OOF
  | S fuel =>
    do a <- rdm c s;
    match mBp a with
    | None => Ok (path ++ [s], cost)
    | Some p => do b <- rdm c p; extract fuel c p (path ++ [s]) (cost + (mG a - mG b))
    end
  end.
Definition extract_path (c : mcore) (goal : nat) : mres (list nat * Z) :=
  do r <- extract (S (size (mSt c))) c goal [] 0; Ok (reverse r.1, r.2).

(** mhaplanner.cpp:205-213, 224-233 and 236-245: done if the goal's g is at most the least f of open list i, otherwise expand
    the state with the least f of open list i. Result: true = done. *)
Definition try_open (hcount : nat) (call : Z) (eps eps2 : Q) (goal : nat) (i : nat) (c : mcore) (nexp : Z) : mres (bool * mcore * Z) :=
  do ga <- rdm c goal;
  do m <- get_minf c i;
  if mG ga <=? m then Ok (true, c, nexp)
  else
    do h <- heap_at c i;
    do t <- mlift MHeap (getminheap h);
    do c <- expand hcount call eps eps2 t.1 i c;
    Ok (false, c, nexp + 1).
(** mhaplanner.cpp:216-247: the loop over the additional heuristics. *)
Fixpoint heuristic_loop (hcount : nat) (call : Z) (eps eps2 : Q) (goal : nat) (is_ : list nat) (c : mcore) (nexp : Z) : mres (bool * mcore * Z) :=
  match is_ with
  | [] => Ok (false, c, nexp)
  | i :: is_ =>
    do h0 <- heap_at c 0;
    if emptyheap h0 then Ok (false, c, nexp)              (* break *)
    else
      do hi <- heap_at c i;
      do use_i <- (if emptyheap hi then Ok false
                   else do mi <- get_minf c i; do m0 <- get_minf c 0; Ok (Qle_bool (inject_Z mi) (eps2 * inject_Z m0)));
      do r <- try_open hcount call eps eps2 goal (if use_i then i else 0%nat) c nexp;
      if (r.1.1 : bool) then Ok r else heuristic_loop hcount call eps eps2 goal is_ r.1.2 r.2
  end.
(** mhaplanner.cpp:412-426 time_limit_reached; [tl] is the clock's answer. *)
Definition time_limit_reached (p : mparams) (maxexp : Z) (tl : bool) (nexp : Z) : bool :=
  if qFirst p then false
  else if negb (Qle_bool (qTime p) 0) && negb tl then true
  else if (maxexp >? 0) && (nexp >=? maxexp) then true
  else false.
(** mhaplanner.cpp:200-250: the main loop. The clock is asked once per round. *)
Fixpoint mha_loop (fuel : nat) (clk : nat -> bool) (par : mparams) (maxexp : Z) (hcount : nat) (call : Z) (eps eps2 : Q) (goal : nat)
  (c : mcore) (nexp : Z) (nclk : nat) : mres (bool * mcore * Z) :=
  match fuel with
  | O => OOF
  | S fuel =>
    do h0 <- heap_at c 0;
    if negb (emptyheap h0) && negb (time_limit_reached par maxexp (clk nclk) nexp) then
      do r <- (if (hcount =? 0)%nat then try_open hcount call eps eps2 goal 0 c nexp
               else heuristic_loop hcount call eps eps2 goal (seq 1 hcount) c nexp);
      if (r.1.1 : bool) then Ok r
      else mha_loop fuel clk par maxexp hcount call eps eps2 goal r.1.2 r.2 (S nclk)
    else Ok (false, c, nexp)
  end.

(** mhaplanner.cpp:189-195: insert the start state into all open lists. *)
Fixpoint insert_start (eps : Q) (s : nat) (is_ : list nat) (c : mcore) : mres mcore :=
  match is_ with
  | [] => Ok c
  | i :: is_ =>
    do a <- rdm c s;
    do k <- compute_key eps a i;
    do h <- heap_at c i;
    do h <- mlift MHeap (insertheap ckeyops h s (mkKey k 0));
    insert_start eps s is_ (set_heap c i h)
  end.
(** mhaplanner.cpp:511-521 reinit_search / clear_open_lists. *)
Fixpoint clear_open (is_ : list nat) (c : mcore) : mres mcore :=
  match is_ with
  | [] => Ok c
  | i :: is_ => do h <- heap_at c i; do h <- mlift MHeap (makeemptyheap h); clear_open is_ (set_heap c i h)
  end.
End search.

(** mhaplanner.cpp:379-410 check_params (double comparisons are exact). *)
Definition check_params (eps2 : Q) (maxexp : Z) (p : mparams) : bool :=
  if negb (Qle_bool 1 (qInit p)) then false
  else if negb (Qle_bool (qFinal p) (qInit p)) then false
  else if Qle_bool (qDec p) 0 then false
  else if negb (Qle_bool 1 eps2) then false
  else if qFirst p && Qle_bool (qTime p) 0 && (maxexp <=? 0) then false
  else true.

(** mhaplanner.cpp:144-260 replan(vector<int>*, ReplanParams, int* ).  The result is the return value 1 with the path and cost written
    to the out-parameters, or None for return value 0, in which case nothing is written to them. Every round expands a state and a state is
    expanded at most twice, hence the fuel. *)
Definition mreplan (e : menv) (clk : nat -> bool) (p : mha) (par : mparams) : mres (option (list nat * Z) * mha) :=
  if negb (check_params (hEps2 p) (hMax p) par) then Ok (None, p)
  else
    do c <- clear_open (seq 0 (S (hN p))) (hC p);
    let call := hCall p + 1 in
    match hGoal p, hStart p with
    | Some g, Some s =>
      do c <- reinit_state e (hN p) call c g;
      do c <- reinit_state e (hN p) call c s;
      do a <- rdm c s;
      let c := set_mst c s (mkM (mCall a) 0 (mBp a) (mAnc a) (mAdd a) (mHs a)) in
      do c <- insert_start (qInit par) s (seq 0 (S (hN p))) c;
      do r <- mha_loop e (S (S (2 * meSize e))) clk par (hMax p) (hN p) call (qInit par) (hEps2 p) g c 0 0;
      let p' sat := mkMha (hN p) r.1.2 call (hStart p) (hGoal p) par (hEps2 p) (hMax p) sat r.2 in
      if (r.1.1 : bool) then
        do x <- extract_path r.1.2 g;
        Ok (Some x, p' (qInit par * hEps2 p)%Q)
      else Ok (None, p' (inject_Z INFINITECOST))
    | _, _ => UB                                            (* reinit_state(NULL) *)
    end.

(** mhaplanner.cpp:96-116 set_start, set_goal. *)
Definition mset_start (e : menv) (p : mha) (s : nat) : mres mha :=
  do c <- get_state e (hN p) (hC p) s; Ok (mkMha (hN p) c (hCall p) (Some s) (hGoal p) (hPar p) (hEps2 p) (hMax p) (hSat p) (hExp p)).
Definition mset_goal (e : menv) (p : mha) (s : nat) : mres mha :=
  do c <- get_state e (hN p) (hC p) s; Ok (mkMha (hN p) c (hCall p) (hStart p) (Some s) (hPar p) (hEps2 p) (hMax p) (hSat p) (hExp p)).
(** mhaplanner.cpp:329-347 set_initial_mha_eps, set_max_expansions. *)
Definition mset_eps2 (p : mha) (w : Q) : mha := mkMha (hN p) (hC p) (hCall p) (hStart p) (hGoal p) (hPar p) w (hMax p) (hSat p) (hExp p).
Definition mset_max (p : mha) (n : Z) : mha := mkMha (hN p) (hC p) (hCall p) (hStart p) (hGoal p) (hPar p) (hEps2 p) n (hSat p) (hExp p).
(** mhaplanner.cpp:262-278 force_planning_from_scratch (both variants) and costs_changed (both overloads) do nothing. *)
Definition mforce_scratch (p : mha) : mha := p.
Definition mcosts_changed (p : mha) : mha := p.
(** mhaplanner.cpp:295-303, 315-318 get_solution_eps, get_final_epsilon, get_n_expands. *)
Definition mget_eps (p : mha) : Q := hSat p.
Definition mget_n_expands (p : mha) : Z := hExp p.
