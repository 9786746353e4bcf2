(** C02, C03, C04, C05.  Statements only; each proof is [exact lemma]. *)
From Verif Require Import Base KeyModel HeapModel HeapSpec HeapExec HeapProofs HeapHistory.

(** C02 (CHeap): every history of API calls behaves as the finite-map specification [hspec],
    result by result and exception by exception; the final content is the specified one. *)
Theorem C02_CHeap_refines_map : forall n os, (0 < n)%Z -> disciplined true os ->
  exists rs h m, run ckeyops (new_heap n) os = Ok (rs, h) /\
    hspec_run (fun a b => key_lt a b = true) key_infinity (20000000 - 1) ∅ os rs m /\
    (forall s, getkeyheap h s = match m !! s with Some k => Ok k | None => Exn h end) /\
    cur h = size m.
Proof. exact (history ckeyops ckeylaws). Qed.
Print Assumptions C02_CHeap_refines_map.

(** C02 (CIntHeap), for any initial size >= 1. *)
Theorem C02_CIntHeap_refines_map : forall n os, (0 < n)%Z -> disciplined true os ->
  exists rs h m, run intops (new_heap n) os = Ok (rs, h) /\
    hspec_run (fun a b => (a <? b)%Z = true) INFINITECOST (20000000 - 1) ∅ os rs m /\
    (forall s, getkeyheap h s = match m !! s with Some k => Ok k | None => Exn h end) /\
    cur h = size m.
Proof. exact (history intops intlaws). Qed.
Print Assumptions C02_CIntHeap_refines_map.

(** C03: heapindex back-pointers are exact after every history. *)
Theorem C03_CHeap_backpointers : forall n os rs h, (0 < n)%Z -> disciplined true os ->
  run ckeyops (new_heap n) os = Ok (rs, h) ->
  (forall s, idxof h s <> 0 -> 1 <= idxof h s <= cur h /\ exists k, arr h !! idxof h s = Some (s, k)) /\
  (forall i, 1 <= i <= cur h -> exists s k, arr h !! i = Some (s, k) /\ idxof h s = i) /\
  (forall s, inheap h s = true <-> exists i k, 1 <= i <= cur h /\ arr h !! i = Some (s, k)).
Proof. exact (backpointers ckeyops ckeylaws). Qed.
Print Assumptions C03_CHeap_backpointers.

Theorem C03_CIntHeap_backpointers : forall n os rs h, (0 < n)%Z -> disciplined true os ->
  run intops (new_heap n) os = Ok (rs, h) ->
  (forall s, idxof h s <> 0 -> 1 <= idxof h s <= cur h /\ exists k, arr h !! idxof h s = Some (s, k)) /\
  (forall i, 1 <= i <= cur h -> exists s k, arr h !! i = Some (s, k) /\ idxof h s = i) /\
  (forall s, inheap h s = true <-> exists i k, 1 <= i <= cur h /\ arr h !! i = Some (s, k)).
Proof. exact (backpointers intops intlaws). Qed.
Print Assumptions C03_CIntHeap_backpointers.

(** C04: no history is undefined behaviour (every array access of the model is checked against
    the allocation and against never-written slots); [Ok] here also covers caught exceptions,
    whose exact conditions are the RThrow clauses of [hspec] in C02. *)
Lemma C04_from_history {K} (ops : keyops K) (L : keylaws ops) n os : (0 < n)%Z -> disciplined true os ->
  run ops (new_heap n) os <> UB /\ run ops (new_heap n) os <> OOF.
Proof. intros H1 H2. destruct (history ops L n os H1 H2) as (?&?&?&->&_). done. Qed.
Theorem C04_CHeap_memory_safe : forall n os, (0 < n)%Z -> disciplined true os ->
  run ckeyops (new_heap n) os <> UB /\ run ckeyops (new_heap n) os <> OOF.
Proof. exact (C04_from_history ckeyops ckeylaws). Qed.
Print Assumptions C04_CHeap_memory_safe.
Theorem C04_CIntHeap_memory_safe : forall n os, (0 < n)%Z -> disciplined true os ->
  run intops (new_heap n) os <> UB /\ run intops (new_heap n) os <> OOF.
Proof. exact (C04_from_history intops intlaws). Qed.
Print Assumptions C04_CIntHeap_memory_safe.

(** Finding: CIntHeap(0) (a legal constructor call) writes outside its array at the second
    insertion at the latest: the growth test [currentsize == allocated-1] never fires. *)
Theorem C04_CIntHeap_zero_size_refuted :
  exists os, disciplined true os /\ run intops (new_heap 0) os = UB.
Proof. exists [OInsert 1 5%Z]. split; [exact I|]. vm_compute. reflexivity. Qed.
Print Assumptions C04_CIntHeap_zero_size_refuted.

(** C05: after any history, overwrite all keys by any function, call makeheap, then take all
    minima: every element comes out once, with its new key, in non-decreasing order. *)
Theorem C05_CHeap_rekey_makeheap_drain : forall n os rs h f, (0 < n)%Z -> disciplined true os ->
  run ckeyops (new_heap n) os = Ok (rs, h) ->
  exists (l : list (nat * ckey)) h',
    run ckeyops h (ORekey f :: OMakeHeap :: replicate (cur h) ODeleteMin) =
      Ok (RUnit :: RUnit :: map (fun e => RState e.1) l, h') /\
    NoDup (l.*1) /\
    (forall s k, (s, k) ∈ l <-> exists k0, getkeyheap h s = Ok k0 /\ k = f s k0) /\
    (forall i j a b, i <= j -> l !! i = Some a -> l !! j = Some b -> key_lt b.2 a.2 = false) /\
    emptyheap h' = true /\ (forall s, inheap h' s = false).
Proof. exact (rekey_makeheap_drain ckeyops ckeylaws). Qed.
Print Assumptions C05_CHeap_rekey_makeheap_drain.

Theorem C05_CIntHeap_rekey_makeheap_drain : forall n os rs h f, (0 < n)%Z -> disciplined true os ->
  run intops (new_heap n) os = Ok (rs, h) ->
  exists (l : list (nat * Z)) h',
    run intops h (ORekey f :: OMakeHeap :: replicate (cur h) ODeleteMin) =
      Ok (RUnit :: RUnit :: map (fun e => RState e.1) l, h') /\
    NoDup (l.*1) /\
    (forall s k, (s, k) ∈ l <-> exists k0, getkeyheap h s = Ok k0 /\ k = f s k0) /\
    (forall i j a b, i <= j -> l !! i = Some a -> l !! j = Some b -> (b.2 <? a.2)%Z = false) /\
    emptyheap h' = true /\ (forall s, inheap h' s = false).
Proof. exact (rekey_makeheap_drain intops intlaws). Qed.
Print Assumptions C05_CIntHeap_rekey_makeheap_drain.

(** Non-vacuity: a concrete disciplined history with growth (initial size 1), duplicates,
    updates, unsafe operations, makeheap and misuse. *)
Definition demo_ops : list (hop Z) :=
  [OInsert 1 5; OInsert 2 3; OInsert 3 9; OInsert 4 1; OInsert 2 7; OUpdate 3 0; ODelete 4;
   OGetMinKey; OInsertUnsafe 7 2; OUpdateUnsafe 1 8; ODeleteUnsafe 2; OMakeHeap; ODeleteMin; ODeleteMin;
   ODelete 99; OGetMin]%Z.
Example demo_disciplined : disciplined true demo_ops.
Proof. exact I. Qed.
Example demo_run : exists h, run intops (new_heap 1) demo_ops =
  Ok ([RUnit; RUnit; RUnit; RUnit; RThrow; RUnit; RUnit; RKey 0; RUnit; RUnit; RUnit; RUnit;
       RState 3; RState 7; RThrow; RElem 1 8]%Z, h).
Proof. eexists. vm_compute. reflexivity. Qed.
