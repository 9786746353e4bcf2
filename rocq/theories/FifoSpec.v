(** Specification of sbpl_fifo: a bounded first-in first-out queue (oldest first). *)
From stdpp Require Import prelude list.
From Verif Require Import FifoModel.   (* only for the names of the calls [fop] and results [fret] *)

Definition fspec {T} (capacity : nat) (l : list T) (o : fop T) (r : fret T) (l' : list T) : Prop :=
  match o with
  | FInsert v => (length l = capacity -> r = FBool false /\ l' = l) /\
                 (length l < capacity -> r = FBool true /\ l' = l ++ [v])
  | FRemove => match l with
               | [] => r = FVal None /\ l' = []
               | v :: l0 => r = FVal (Some v) /\ l' = l0
               end
  | FEmpty => exists b, r = FBool b /\ (b = true <-> l = []) /\ l' = l
  | FClear => r = FUnit /\ l' = []
  end.
Inductive fspec_run {T} (capacity : nat) : list T -> list (fop T) -> list (fret T) -> list T -> Prop :=
| fspec_nil l : fspec_run capacity l [] [] l
| fspec_cons l o r l1 os rs l2 :
    fspec capacity l o r l1 -> fspec_run capacity l1 os rs l2 ->
    fspec_run capacity l (o :: os) (r :: rs) l2.
