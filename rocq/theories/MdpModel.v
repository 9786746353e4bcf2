(** Model of /repo/src/utils/mdp.cpp (look-ups and predecessor lists) and of PathExists,
    /repo/src/utils/utils.cpp:116-166. Probabilities are integers in any fixed unit (only compared). *)
From Verif Require Import Base.
Local Open Scope Z_scope.

(** mdp.h:44-82 CMDPACTION: the three parallel vectors SuccsID, Costs, SuccsProb as one list
    (AddOutcome, mdp.cpp:65-80, always pushes on all three). *)
Record maction := mkAction { aID : Z; aOut : list (Z * Z * Z) (* SuccsID, Costs, SuccsProb *) }.
Definition aSuccs (a : maction) : list Z := (fun o => o.1.1) <$> aOut a.
(** mdp.h:84-120 CMDPSTATE. *)
Record mstate := mkState { msID : Z; msActs : list maction; msPreds : list Z }.

(** mdp.cpp:86-99 GetIndofMostLikelyOutcome; -1 is None. *)
Fixpoint most_likely_loop (os : list (Z * Z * Z)) (oind : nat) (highest : Z) (mlind : option nat) : option nat :=
  match os with
  | [] => mlind
  | o :: os => if o.2 >=? highest then most_likely_loop os (S oind) (o.2) (Some oind)
               else most_likely_loop os (S oind) highest mlind
  end.
Definition GetIndofMostLikelyOutcome (a : maction) : option nat := most_likely_loop (aOut a) 0 0 None.

(** mdp.cpp:101-110 GetIndofOutcome. *)
Fixpoint ind_of_outcome_loop (os : list Z) (oind : nat) (id : Z) : option nat :=
  match os with
  | [] => None
  | o :: os => if o =? id then Some oind else ind_of_outcome_loop os (S oind) id
  end.
Definition GetIndofOutcome (a : maction) (id : Z) : option nat := ind_of_outcome_loop (aSuccs a) 0 id.

(** mdp.cpp:219-226 GetAction (NULL is None). *)
Fixpoint GetAction_loop (acts : list maction) (id : Z) : option maction :=
  match acts with
  | [] => None
  | a :: acts => if aID a =? id then Some a else GetAction_loop acts id
  end.
Definition GetAction (s : mstate) (id : Z) : option maction := GetAction_loop (msActs s) id.

(** mdp.cpp:206-212 ContainsPred. *)
Fixpoint ContainsPred (preds : list Z) (id : Z) : bool :=
  match preds with [] => false | p :: ps => if p =? id then true else ContainsPred ps id end.
(** mdp.cpp:156-171 AddPred. *)
Definition AddPred (preds : list Z) (id : Z) : list Z :=
  if ContainsPred preds id then preds else preds ++ [id].
(** mdp.cpp:173-189 RemovePred: first hit is overwritten by the last element, then pop_back. *)
Fixpoint RemovePred_loop (i : nat) (todo all : list Z) (id : Z) : bool * list Z :=
  match todo with
  | [] => (false, all)
  | p :: ps =>
    if p =? id
    then (true, match last all with
                | Some lst => take (length all - 1) (<[i := lst]> all)
                | None => all
                end)
    else RemovePred_loop (S i) ps all id
  end.
Definition RemovePred (preds : list Z) (id : Z) : bool * list Z := RemovePred_loop 0 preds preds id.

(** utils.cpp:148-150 search of the successor's array index: first state with that StateID. *)
Fixpoint find_state (arr : list mstate) (i : nat) (id : Z) : option nat :=
  match arr with
  | [] => None
  | s :: arr => if msID s =? id then Some i else find_state arr (S i) id
  end.

(** utils.cpp:146-161 the inner loop over the outcomes of the policy action.
    The exception carries no information (the working state is local). *)
Fixpoint push_succs (arr : list mstate) (succs : list Z) (proc : list bool) (wl : list nat)
  : outcome unit (list bool * list nat) :=
  match succs with
  | [] => Ok (proc, wl)
  | id :: succs =>
    match find_state arr 0 id with
    | None => Exn tt                                   (* "successor is not found" *)
    | Some i =>
      match proc !! i with
      | None => UB
      | Some true => push_succs arr succs proc wl
      | Some false => push_succs arr succs (<[i := true]> proc) (i :: wl)
      end
    end
  end.

(** utils.cpp:131-162 the work list loop; states (pointers) are identified with their index in
    StateArray; the work list is a stack, its back (top) is the head of the list. *)
Fixpoint path_loop (fuel : nat) (arr : list mstate) (target : nat) (proc : list bool) (wl : list nat)
  : outcome unit bool :=
  match fuel with
  | O => OOF
  | S fuel =>
    match wl with
    | [] => Ok false
    | s :: wl =>
      match arr !! s with
      | None => UB
      | Some st =>
        if (1 <? Z.of_nat (length (msActs st))) then Exn tt   (* "Markov Chain is a general MDP" *)
        else if (s =? target)%nat then Ok true
        else
          do r <- push_succs arr (match msActs st with [] => [] | a :: _ => aSuccs a end) proc wl;
          path_loop fuel arr target (r.1) (r.2)
      end
    end
  end.

(** utils.cpp:116-166 PathExists. *)
Definition PathExists (arr : list mstate) (source target : nat) : outcome unit bool :=
  path_loop (length arr + 2) arr target (replicate (length arr) false) [source].
