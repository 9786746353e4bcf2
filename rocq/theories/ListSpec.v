(** Specification of CList: a duplicate-free sequence of states, most recently inserted first. *)
From stdpp Require Import prelude list.
From Coq Require Import ZArith.

Inductive lop := LInsert (s : nat) | LRemove (s : nat) | LMakeEmpty
  | LGetFirst | LGetLast | LGetNext (s : nat) | LIn (s : nat) | LEmpty.
Inductive lret := LUnit | LThrow | LState (s : option nat) | LBool (b : bool).

Definition lremove (s : nat) (l : list nat) : list nat := filter (fun x => x <> s) l.

(** [maxsize] elements at most.  LGetNext is only specified (and only allowed) on members. *)
Definition lspec (maxsize : Z) (l : list nat) (o : lop) (r : lret) (l' : list nat) : Prop :=
  match o with
  | LInsert s =>
      (s ∈ l \/ (Z.of_nat (length l) >= maxsize)%Z -> r = LThrow /\ l' = l) /\
      (s ∉ l -> (Z.of_nat (length l) < maxsize)%Z -> r = LUnit /\ l' = s :: l)
  | LRemove s =>
      (s ∉ l -> r = LThrow /\ l' = l) /\ (s ∈ l -> r = LUnit /\ l' = lremove s l)
  | LMakeEmpty => r = LUnit /\ l' = []
  | LGetFirst => r = LState (head l) /\ l' = l
  | LGetLast => r = LState (last l) /\ l' = l
  | LGetNext s => forall i, l !! i = Some s -> r = LState (l !! S i) /\ l' = l
  | LIn s => exists b, r = LBool b /\ (b = true <-> s ∈ l) /\ l' = l
  | LEmpty => exists b, r = LBool b /\ (b = true <-> l = []) /\ l' = l
  end.

Inductive lspec_run (maxsize : Z) : list nat -> list lop -> list lret -> list nat -> Prop :=
| lspec_nil l : lspec_run maxsize l [] [] l
| lspec_cons l o r l1 os rs l2 :
    lspec maxsize l o r l1 -> lspec_run maxsize l1 os rs l2 ->
    lspec_run maxsize l (o :: os) (r :: rs) l2.

(** Content after one call (the specification is deterministic). *)
Definition lnext (maxsize : Z) (l : list nat) (o : lop) : list nat :=
  match o with
  | LInsert s => if decide (s ∈ l) then l else if (Z.of_nat (length l) <? maxsize)%Z then s :: l else l
  | LRemove s => lremove s l
  | LMakeEmpty => []
  | _ => l
  end.
(** Only precondition of the class: getnext is called on members only. *)
Fixpoint lallowed (maxsize : Z) (l : list nat) (os : list lop) : Prop :=
  match os with
  | [] => True
  | o :: os' => (forall s, o = LGetNext s -> s ∈ l) /\ lallowed maxsize (lnext maxsize l o) os'
  end.
