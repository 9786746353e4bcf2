(** Model of EvaluatePolicy, /repo/src/utils/utils.cpp:188-300.
    Simplified: [double] values and [float] probabilities are exact rationals; printing is left out;
    the two working arrays are freed on one of the two return paths only (memory is not modelled). *)
From Verif Require Import Base MdpModel.
From Coq Require Export QArith.
Local Open Scope Z_scope.

(** The C++ [<] on doubles, here on rationals (no code of its own). *)
Definition qltb (x y : Q) : bool := negb (Qle_bool y x).

(** mdp.h:44-82 CMDPACTION with rational probabilities: (SuccsID, Costs, SuccsProb). *)
Record eact := mkEA { ea_id : Z; ea_outs : list (Z * Z * Q) }.
(** mdp.h:84-120 CMDPSTATE (PredsID is not used by EvaluatePolicy). *)
Record est := mkES { es_id : Z; es_acts : list eact }.

(** The same Markov chain as PathExists sees it (it never looks at the probabilities). *)
Definition to_maction (a : eact) : maction := mkAction (ea_id a) ((fun o => (o.1.1, o.1.2, 0)) <$> ea_outs a).
Definition to_mstate (s : est) : mstate := mkState (es_id s) (to_maction <$> es_acts s) [].
Definition to_mdp (arr : list est) : list mstate := to_mstate <$> arr.

(** utils.cpp:240-242 search of a successor's array index: the first state with that StateID. *)
Fixpoint ev_find (arr : list est) (i : nat) (id : Z) : option nat :=
  match arr with
  | [] => None
  | s :: arr => if es_id s =? id then Some i else ev_find arr (S i) id
  end.

(** utils.h:56. *)
Definition UNKNOWN_COST : Z := 1000000.
(** utils.cpp:192 mindelta. *)
Definition EV_MINDELTA : Q := 1 # 10.

(** The local variables of EvaluatePolicy and the output parameters. *)
Record evst := mkEV { ev_vals : list Q; ev_pcs : list Q; ev_delta : Q; ev_full : bool; ev_first : bool;
                      ev_pcgoal : Q; ev_merges : Z; ev_cycles : bool }.

(** utils.cpp:237-250 the backup of one action. *)
Fixpoint ev_backup (arr : list est) (vals : list Q) (outs : list (Z * Z * Q)) (q : Q) : outcome unit Q :=
  match outs with
  | [] => Ok q
  | o :: outs =>
    match ev_find arr 0 (o.1.1) with
    | None => Exn tt                                         (* "incorrect successor" *)
    | Some j => match vals !! j with
                | None => UB
                | Some v => ev_backup arr vals outs (q + o.2 * (v + inject_Z (o.1.2)))%Q
                end
    end
  end.

(** utils.cpp:267-286 the outcomes of predecessor candidate j; the accumulators are Pc, nMerge, bCycles. *)
Fixpoint ev_pred_outs (arr : list est) (first : bool) (i j : nat) (id : Z) (predpc : Q)
    (outs : list (Z * Z * Q)) (acc : Q * Z * bool) : outcome unit (Q * Z * bool) :=
  match outs with
  | [] => Ok acc
  | o :: outs =>
    if o.1.1 =? id then
      let pc := (acc.1.1 + o.2 * predpc)%Q in
      do cyc <- (if first && negb (acc.2) then PathExists (to_mdp arr) i j else Ok (acc.2));
      ev_pred_outs arr first i j id predpc outs (pc, acc.1.2 + 1, cyc)
    else ev_pred_outs arr first i j id predpc outs acc
  end.

(** utils.cpp:266-287 the loop over all states as predecessors; [js] is what is left of the array. *)
Fixpoint ev_preds (arr : list est) (first : bool) (i : nat) (id : Z) (pcs : list Q)
    (js : list est) (j : nat) (acc : Q * Z * bool) : outcome unit (Q * Z * bool) :=
  match js with
  | [] => Ok acc
  | s :: js =>
    match pcs !! j with
    | None => UB
    | Some predpc =>
      do acc <- ev_pred_outs arr first i j id predpc
                  (match es_acts s with [] => [] | a :: _ => ea_outs a end) acc;
      ev_preds arr first i id pcs js (S j) acc
    end
  end.

(** utils.cpp:262-294 Pc, merges and cycles of state i. *)
Definition ev_pc (arr : list est) (start goal : Z) (i : nat) (s : est) (st : evst) : outcome unit evst :=
  do r <- ev_preds arr (ev_first st) i (es_id s) (ev_pcs st) arr 0 (0%Q, 0, ev_cycles st);
  let merges := if ev_first st && negb (es_id s =? goal) && (0 <? r.1.2)
                then ev_merges st + (r.1.2 - 1) else ev_merges st in
  let pcs := if es_id s =? start then ev_pcs st else <[i := r.1.1]> (ev_pcs st) in
  match pcs !! i with
  | None => UB
  | Some pc =>
    Ok (mkEV (ev_vals st) pcs (ev_delta st) (ev_full st) (ev_first st)
             (if es_id s =? goal then pc else ev_pcgoal st) merges (r.2))
  end.

(** utils.cpp:217-295 the body of the loop over the states; the flag says "return now" (line 228-231). *)
Definition ev_state (arr : list est) (start goal : Z) (i : nat) (s : est) (st : evst)
    : outcome unit (evst * bool) :=
  let set_vals v d := mkEV (<[i := v]> (ev_vals st)) (ev_pcs st) d (ev_full st) (ev_first st)
                           (ev_pcgoal st) (ev_merges st) (ev_cycles st) in
  if es_id s =? goal then
    do st <- ev_pc arr start goal i s (set_vals 0%Q (ev_delta st)); Ok (st, false)
  else
    match es_acts s with
    | [] => Ok (mkEV (<[i := inject_Z UNKNOWN_COST]> (ev_vals st)) (ev_pcs st) (ev_delta st) false
                     (ev_first st) (ev_pcgoal st) (ev_merges st) (ev_cycles st), true)
    | a :: _ =>
      do q <- ev_backup arr (ev_vals st) (ea_outs a) 0%Q;
      match ev_vals st !! i with
      | None => UB
      | Some v =>
        if qltb q v then Exn tt                 (* "val is decreasing" *)
        else
          let d := if qltb (ev_delta st) (q - v)%Q then (q - v)%Q else ev_delta st in
          do st <- ev_pc arr start goal i s (set_vals q d); Ok (st, false)
      end
    end.

(** utils.cpp:217-296 one sweep over the states; [ss] is what is left of the array, from index i. *)
Fixpoint ev_sweep (arr : list est) (start goal : Z) (ss : list est) (i : nat) (st : evst)
    : outcome unit (evst * bool) :=
  match ss with
  | [] => Ok (st, false)
  | s :: ss =>
    do r <- ev_state arr start goal i s st;
    if r.2 then Ok (r.1, true) else ev_sweep arr start goal ss (S i) (r.1)
  end.

(** What the caller gets: PolValue, bFullPolicy, Pcgoal, nMerges, bCycles. *)
Record evres := mkER { er_val : Q; er_full : bool; er_pcgoal : Q; er_merges : Z; er_cycles : bool }.
Definition ev_result (startind : option nat) (st : evst) : outcome unit evres :=
  match startind with
  | None => UB                                               (* vals[-1] *)
  | Some k => match ev_vals st !! k with
              | None => UB
              | Some v => Ok (mkER v (ev_full st) (ev_pcgoal st) (ev_merges st) (ev_cycles st))
              end
  end.

(** utils.cpp:215-299 the loop "until delta small", tested by [ev_delta]. *)
Fixpoint ev_loop (fuel : nat) (arr : list est) (start goal : Z) (startind : option nat) (st : evst)
    : outcome unit evres :=
  match fuel with
  | O => OOF
  | S fuel =>
    if qltb EV_MINDELTA (ev_delta st) then
      do r <- ev_sweep arr start goal arr 0
                (mkEV (ev_vals st) (ev_pcs st) 0%Q (ev_full st) (ev_first st) (ev_pcgoal st) (ev_merges st) (ev_cycles st));
      if r.2 then ev_result startind (r.1)
      else let s := r.1 in
           ev_loop fuel arr start goal startind
             (mkEV (ev_vals s) (ev_pcs s) (ev_delta s) (ev_full s) false (ev_pcgoal s) (ev_merges s) (ev_cycles s))
    else ev_result startind st
  end.

(** utils.cpp:203-210 startind: the last state with the start's id. *)
Fixpoint ev_startind (arr : list est) (i : nat) (id : Z) (acc : option nat) : option nat :=
  match arr with
  | [] => acc
  | s :: arr => ev_startind arr (S i) id (if es_id s =? id then Some i else acc)
  end.

(** utils.cpp:188-300 EvaluatePolicy; [cyc] is the caller's value of *bCycles (it is never reset). *)
Definition EvaluatePolicy (fuel : nat) (arr : list est) (start goal : Z) (cyc : bool) : outcome unit evres :=
  ev_loop fuel arr start goal (ev_startind arr 0 start None)
    (mkEV (replicate (length arr) 0%Q) ((fun s => if es_id s =? start then 1%Q else 0%Q) <$> arr)
          (inject_Z INFINITECOST) true true 0%Q 0 cyc).
