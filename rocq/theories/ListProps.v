(** C06.  CList refines a duplicate-free sequence. *)
From Verif Require Import Base ListModel ListSpec ListProofs.

(** For every history of calls (getnext on members only) the class never hits undefined
    behaviour and returns exactly what the sequence specification says. *)
Theorem C06_list_refines_sequence : forall os, lallowed 5000000 [] os ->
  exists rs l content, lrun new_list os = Ok (rs, l) /\ lspec_run 5000000 [] os rs content /\
    NoDup content /\ csize l = length content.
Proof. exact list_history. Qed.
Print Assumptions C06_list_refines_sequence.

(** Walking with getfirst/getnext after any history enumerates the content in order. *)
Theorem C06_enumeration : forall os, lallowed 5000000 [] os ->
  exists rs l content, lrun new_list os = Ok (rs, l) /\ lspec_run 5000000 [] os rs content /\
    (do f <- getfirst l; walk (length content) l f) = Ok content.
Proof. exact list_enumerate. Qed.
Print Assumptions C06_enumeration.

Definition list_demo : list lop :=
  [LInsert 4; LInsert 7; LInsert 9; LInsert 7; LRemove 7; LGetFirst; LGetNext 9; LInsert 7; LGetLast;
   LRemove 3; LRemove 4; LGetLast; LIn 4; LMakeEmpty; LEmpty; LInsert 4; LGetFirst].
Example list_demo_allowed : lallowed 5000000 [] list_demo.
Proof.
  vm_compute. repeat split; intros s Hs; try discriminate Hs. injection Hs as <-. repeat constructor.
Qed.
Example list_demo_run : exists l, lrun new_list list_demo =
  Ok ([LUnit; LUnit; LUnit; LThrow; LUnit; LState (Some 9); LState (Some 4); LUnit; LState (Some 4);
       LThrow; LUnit; LState (Some 9); LBool false; LUnit; LBool true; LUnit; LState (Some 4)], l).
Proof. eexists. vm_compute. reflexivity. Qed.
