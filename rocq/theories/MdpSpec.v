(** Specification vocabulary for C16/C17 (data types of the model only). *)
From Verif Require Import Base MdpModel.
Local Open Scope Z_scope.

(** [i] is the first state of the array that carries the id. *)
Definition denotes (arr : list mstate) (id : Z) (i : nat) : Prop :=
  (exists s, arr !! i = Some s /\ msID s = id) /\
  (forall j s, arr !! j = Some s -> msID s = id -> (i <= j)%nat).
(** One step of the policy: state i has an action and one of its outcomes names state j. *)
Definition policy_step (arr : list mstate) (i j : nat) : Prop :=
  exists s a acts id, arr !! i = Some s /\ msActs s = a :: acts /\ id ∈ aSuccs a /\ denotes arr id j.
(** A state that makes PathExists throw. *)
Definition malformed (arr : list mstate) (i : nat) : Prop :=
  exists s, arr !! i = Some s /\
    ((1 < length (msActs s))%nat \/
     exists a acts id, msActs s = a :: acts /\ id ∈ aSuccs a /\ (forall j t, arr !! j = Some t -> msID t <> id)).

(** Histories of predecessor-list operations and the set they should denote. *)
Inductive predop := PAdd (id : Z) | PRemove (id : Z).
Definition run_pred (l : list Z) (o : predop) : list Z :=
  match o with PAdd i => AddPred l i | PRemove i => (RemovePred l i).2 end.
Definition spec_pred (s : gset Z) (o : predop) : gset Z :=
  match o with PAdd i => {[i]} ∪ s | PRemove i => s ∖ {[i]} end.
