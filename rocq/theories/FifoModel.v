(** Model of class sbpl_fifo<T>, /repo/src/include/sbpl/utils/sbpl_fifo.h (circular buffer).
    [int] indices are [nat]; a slot absent from [q] was never written. *)
From Verif Require Import Base.

Section fifo.
Context {T : Type}.
(** sbpl_fifo.h:88-92. *)
Record fifo := mkFifo { fhead : nat; ftail : nat; fsize : nat; q : gmap nat T }.
Notation fres A := (outcome unit A).

(** sbpl_fifo.h:39-45 constructor. *)
Definition new_fifo (size : nat) : fifo := mkFifo 0 0 size ∅.

(** sbpl_fifo.h:52-63 insert; returns false (and prints) when full. *)
Definition fifo_insert (f : fifo) (v : T) : fres (bool * fifo) :=
  if (ftail f =? fhead f + 1)%nat || ((ftail f =? 0)%nat && (fhead f + 1 =? fsize f)%nat)
  then Ok (false, f)
  else if (fhead f <? fsize f)%nat then
    let h1 := fhead f + 1 in
    let h2 := if (h1 =? fsize f)%nat then 0 else h1 in
    Ok (true, mkFifo h2 (ftail f) (fsize f) (<[fhead f := v]> (q f)))
  else UB.

(** sbpl_fifo.h:65-75 remove; [None] is the [return false] branch. *)
Definition fifo_remove (f : fifo) : fres (option T * fifo) :=
  if (fhead f =? ftail f)%nat then Ok (None, f)
  else if (ftail f <? fsize f)%nat then
    match q f !! ftail f with
    | None => UB
    | Some v =>
      let t1 := ftail f + 1 in
      let t2 := if (t1 =? fsize f)%nat then 0 else t1 in
      Ok (Some v, mkFifo (fhead f) t2 (fsize f) (q f))
    end
  else UB.

(** sbpl_fifo.h:77-80 empty, 82-86 clear. *)
Definition fifo_empty (f : fifo) : bool := (fhead f =? ftail f)%nat.
Definition fifo_clear (f : fifo) : fifo := mkFifo 0 0 (fsize f) (q f).
End fifo.
Arguments fifo T : clear implicits.

(** Histories. *)
Inductive fop (T : Type) := FInsert (v : T) | FRemove | FEmpty | FClear.
Arguments FInsert {T}. Arguments FRemove {T}. Arguments FEmpty {T}. Arguments FClear {T}.
Inductive fret (T : Type) := FBool (b : bool) | FVal (v : option T) | FUnit.
Arguments FBool {T}. Arguments FVal {T}. Arguments FUnit {T}.

Definition fexec {T} (f : fifo T) (o : fop T) : outcome unit (fret T * fifo T) :=
  match o with
  | FInsert v => do p <- fifo_insert f v; Ok (FBool p.1, p.2)
  | FRemove => do p <- fifo_remove f; Ok (FVal p.1, p.2)
  | FEmpty => Ok (FBool (fifo_empty f), f)
  | FClear => Ok (FUnit, fifo_clear f)
  end.
Fixpoint frun {T} (f : fifo T) (os : list (fop T)) : outcome unit (list (fret T) * fifo T) :=
  match os with
  | [] => Ok ([], f)
  | o :: os' => do p <- fexec f o; do r <- frun p.2 os'; Ok (p.1 :: r.1, r.2)
  end.
