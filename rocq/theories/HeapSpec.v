(** Specification of the priority queues CHeap / CIntHeap: a finite map from states to keys.
    Does not mention the model of the code. *)
From stdpp Require Import prelude gmap.
From Coq Require Import ZArith.

(** The public methods (and the planners' bulk overwrite of the stored keys, [ORekey]). *)
Inductive hop (K : Type) :=
| OInsert (s : nat) (k : K)      (* insertheap *)
| ODelete (s : nat)              (* deleteheap *)
| OUpdate (s : nat) (k : K)      (* updateheap *)
| ODeleteMin                     (* deleteminheap *)
| OGetMin                        (* getminheap(ReturnKey) *)
| OGetMinKey                     (* getminkeyheap *)
| OGetKey (s : nat)              (* getkeyheap *)
| OInHeap (s : nat)              (* inheap *)
| OIsEmpty                       (* emptyheap *)
| OMakeEmpty                     (* makeemptyheap *)
| OInsertUnsafe (s : nat) (k : K)(* insert_unsafe *)
| ODeleteUnsafe (s : nat)        (* deleteheap_unsafe *)
| OUpdateUnsafe (s : nat) (k : K)(* updateheap_unsafe *)
| ORekey (f : nat -> K -> K)     (* heap[i].key := f(state, old key) for every stored element *)
| OMakeHeap.                     (* makeheap *)
Arguments OInsert {K}. Arguments ODelete {K}. Arguments OUpdate {K}. Arguments ODeleteMin {K}.
Arguments OGetMin {K}. Arguments OGetMinKey {K}. Arguments OGetKey {K}. Arguments OInHeap {K}.
Arguments OIsEmpty {K}. Arguments OMakeEmpty {K}. Arguments OInsertUnsafe {K}.
Arguments ODeleteUnsafe {K}. Arguments OUpdateUnsafe {K}. Arguments ORekey {K}. Arguments OMakeHeap {K}.

(** What the caller sees. *)
Inductive hret (K : Type) :=
| RUnit | RThrow | RState (s : nat) | RElem (s : nat) (k : K) | RKey (k : K) | RBool (b : bool).
Arguments RUnit {K}. Arguments RThrow {K}. Arguments RState {K}. Arguments RElem {K}.
Arguments RKey {K}. Arguments RBool {K}.

Section spec.
Context {K : Type}.
Variable lt : K -> K -> Prop.    (* strict order on keys *)
Variable inf : K.                (* key reported for an empty queue *)
Variable maxsize : Z.            (* a full queue holds this many elements *)

Definition is_min (m : gmap nat K) (s : nat) (k : K) : Prop :=
  m !! s = Some k /\ forall s' k', m !! s' = Some k' -> ~ lt k' k.

(** [hspec m o r m'] : operation [o] on content [m] may return [r] and leave content [m']. *)
Definition hspec (m : gmap nat K) (o : hop K) (r : hret K) (m' : gmap nat K) : Prop :=
  match o with
  | OInsert s k | OInsertUnsafe s k =>
      (is_Some (m !! s) \/ Z.of_nat (size m) = maxsize -> r = RThrow /\ m' = m) /\
      (m !! s = None -> Z.of_nat (size m) <> maxsize -> r = RUnit /\ m' = <[s := k]> m)
  | ODelete s | ODeleteUnsafe s =>
      (m !! s = None -> r = RThrow /\ m' = m) /\
      (is_Some (m !! s) -> r = RUnit /\ m' = delete s m)
  | OUpdate s k | OUpdateUnsafe s k =>
      (m !! s = None -> r = RThrow /\ m' = m) /\
      (is_Some (m !! s) -> r = RUnit /\ m' = <[s := k]> m)
  | ODeleteMin =>
      (m = ∅ -> r = RThrow /\ m' = m) /\
      (m <> ∅ -> exists s k, is_min m s k /\ r = RState s /\ m' = delete s m)
  | OGetMin =>
      (m = ∅ -> r = RThrow /\ m' = m) /\
      (m <> ∅ -> exists s k, is_min m s k /\ r = RElem s k /\ m' = m)
  | OGetMinKey =>
      (m = ∅ -> r = RKey inf /\ m' = m) /\
      (m <> ∅ -> exists s k, is_min m s k /\ r = RKey k /\ m' = m)
  | OGetKey s =>
      (m !! s = None -> r = RThrow /\ m' = m) /\
      (forall k, m !! s = Some k -> r = RKey k /\ m' = m)
  | OInHeap s => exists b, r = RBool b /\ (b = true <-> is_Some (m !! s)) /\ m' = m
  | OIsEmpty => exists b, r = RBool b /\ (b = true <-> m = ∅) /\ m' = m
  | OMakeEmpty => r = RUnit /\ m' = ∅
  | ORekey f => r = RUnit /\ (forall s, m' !! s = match m !! s with Some k => Some (f s k) | None => None end)
  | OMakeHeap => r = RUnit /\ m' = m
  end.

Inductive hspec_run : gmap nat K -> list (hop K) -> list (hret K) -> gmap nat K -> Prop :=
| hspec_nil m : hspec_run m [] [] m
| hspec_cons m o r m1 os rs m2 :
    hspec m o r m1 -> hspec_run m1 os rs m2 -> hspec_run m (o :: os) (r :: rs) m2.

(** Use of the unsafe operations: after insert_unsafe / deleteheap_unsafe / updateheap_unsafe or a
    bulk overwrite of keys the queue order is suspended ([false]) and no order-dependent
    method may be called until makeheap (or makeemptyheap). *)
Definition next_mode (ordered : bool) (o : hop K) : option bool :=
  match o with
  | OInsertUnsafe _ _ | ODeleteUnsafe _ | OUpdateUnsafe _ _ | ORekey _ => Some false
  | OMakeHeap | OMakeEmpty => Some true
  | OGetKey _ | OInHeap _ | OIsEmpty => Some ordered
  | _ => if ordered then Some true else None
  end.
Fixpoint disciplined (ordered : bool) (os : list (hop K)) : Prop :=
  match os with
  | [] => True
  | o :: os' => match next_mode ordered o with Some b => disciplined b os' | None => False end
  end.
End spec.
