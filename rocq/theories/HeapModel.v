(** Model of CHeap (key type CKey) and CIntHeap (key type int),
    /repo/src/utils/heap.cpp and /repo/src/include/sbpl/utils/heap.h.
    The two classes have the same text up to the key type (and CHeap's three *_unsafe
    methods, CIntHeap's extra constructor), so one model is parametrised by the key type
    and its comparison operators and instantiated twice (end of file).

    Simplifications: the counter [percolates] (statistics only) and printing are dropped;
    [int] slot numbers are [nat]; an AbstractSearchState is identified by a number [sid] and its
    [heapindex] field is the entry of [idx] (a state belongs to one heap at a time: the planners
    use one heap per AbstractSearchState). *)
From Verif Require Import Base KeyModel.

(** heap.h:39 [#define HEAPSIZE 20000000], heap.h:40 [#define HEAPSIZE_INIT 5000]. *)
Definition HEAPSIZE : Z := 20000000.
Definition HEAPSIZE_INIT : Z := 5000.

Record keyops (K : Type) := mkKeyops {
  klt : K -> K -> bool;   (* operator <  *)
  kgt : K -> K -> bool;   (* operator >  *)
  kne : K -> K -> bool;   (* operator != *)
  kinf : K                (* what getminkeyheap returns on an empty heap *)
}.
Arguments klt {K}. Arguments kgt {K}. Arguments kne {K}. Arguments kinf {K}.

Section heap.
Context {K : Type} (ops : keyops K).

(** heap.h:42-48 HEAPELEMENT { heapstate; key }. *)
Notation elem := (nat * K)%type.

(** heap.h:50-57: currentsize, allocated, heap[]; a slot absent from [arr] was never written.
    [idx] holds AbstractSearchState::heapindex (planner.h), 0 when absent. *)
Record heap := mkHeap {
  cur : nat;
  alloc : Z;
  arr : gmap nat elem;
  idx : gmap nat nat
}.
Notation res A := (outcome heap A).

Definition idxof (h : heap) (s : nat) : nat := default 0 (idx h !! s).
Definition set_idx (h : heap) (s i : nat) : heap :=
  mkHeap (cur h) (alloc h) (arr h) (<[s := i]> (idx h)).
Definition set_cur (h : heap) (n : nat) : heap := mkHeap n (alloc h) (arr h) (idx h).

(** Array read heap[i]: undefined when outside the allocation or never written. *)
Definition rd (h : heap) (i : nat) : res elem :=
  if (Z.of_nat i <? alloc h)%Z then
    match arr h !! i with Some e => Ok e | None => UB end
  else UB.
(** Array write heap[i] = e: undefined when outside the allocation. *)
Definition wr0 (h : heap) (i : nat) (e : elem) : res heap :=
  if (Z.of_nat i <? alloc h)%Z
  then Ok (mkHeap (cur h) (alloc h) (<[i := e]> (arr h)) (idx h)) else UB.
(** The pair [heap[i] = e; heap[i].heapstate->heapindex = i] that occurs throughout. *)
Definition wr (h : heap) (i : nat) (e : elem) : res heap :=
  do h1 <- wr0 h i e; Ok (set_idx h1 (e.1) i).

(** heap.cpp:52-60 CHeap::CHeap, 302-318 CIntHeap::CIntHeap() / (int initial_size). *)
Definition new_heap (allocated : Z) : heap := mkHeap 0 allocated ∅ ∅.

(** heap.cpp:71-91 / 329-349 percolatedown: the for loop of lines 76-87 and the final
    assignment of lines 88-89. *)
Fixpoint pdown_loop (fuel : nat) (h : heap) (hole : nat) (tmp : elem) : res heap :=
  match fuel with
  | O => OOF
  | S f =>
    if (2 * hole <=? cur h)%nat then
      let c0 := 2 * hole in
      do child <-
        (if (c0 =? cur h)%nat then Ok c0
         else do e1 <- rd h (c0 + 1); do e0 <- rd h c0;
              Ok (if klt ops e1.2 e0.2 then c0 + 1 else c0));
      do ec <- rd h child;
      if klt ops ec.2 tmp.2 then
        do h1 <- wr h hole ec; pdown_loop f h1 child tmp
      else wr h hole tmp
    else wr h hole tmp
  end.
Definition percolatedown (h : heap) (hole : nat) (tmp : elem) : res heap :=
  if (cur h =? 0)%nat then Ok h else pdown_loop (S (cur h)) h hole tmp.

(** heap.cpp:93-104 / 351-362 percolateup. *)
Fixpoint pup_loop (fuel : nat) (h : heap) (hole : nat) (tmp : elem) : res heap :=
  match fuel with
  | O => OOF
  | S f =>
    if (1 <? hole)%nat then
      do ep <- rd h (hole / 2);
      if klt ops tmp.2 ep.2 then
        do h1 <- wr h hole ep; pup_loop f h1 (hole / 2) tmp
      else wr h hole tmp
    else wr h hole tmp
  end.
Definition percolateup (h : heap) (hole : nat) (tmp : elem) : res heap :=
  if (cur h =? 0)%nat then Ok h else pup_loop (S hole) h hole tmp.

(** heap.cpp:106-114 / 364-372 percolateupordown. *)
Definition percolateupordown (h : heap) (hole : nat) (tmp : elem) : res heap :=
  if (cur h =? 0)%nat then Ok h
  else if (1 <? hole)%nat then
    do ep <- rd h (hole / 2);
    if kgt ops ep.2 tmp.2 then percolateup h hole tmp else percolatedown h hole tmp
  else percolatedown h hole tmp.

(** heap.cpp:116-119 emptyheap. *)
Definition emptyheap (h : heap) : bool := (cur h =? 0)%nat.
(** heap.cpp:121-124 fullheap. *)
Definition fullheap (h : heap) : bool := (Z.of_nat (cur h) =? HEAPSIZE - 1)%Z.
(** heap.cpp:126-129 inheap. *)
Definition inheap (h : heap) (s : nat) : bool := negb (idxof h s =? 0)%nat.
(** heap.cpp:131-136 getkeyheap. *)
Definition getkeyheap (h : heap) (s : nat) : res K :=
  if (idxof h s =? 0)%nat then Exn h else do e <- rd h (idxof h s); Ok e.2.

(** heap.cpp:138-145 makeemptyheap: [for (i = 1; i <= currentsize; ++i)
    heap[i].heapstate->heapindex = 0; currentsize = 0].  [n] iterations from slot [i]. *)
Fixpoint clear_idx (h : heap) (i n : nat) : res heap :=
  match n with
  | O => Ok h
  | S n' => do e <- rd h i; clear_idx (set_idx h (e.1) 0) (S i) n'
  end.
Definition makeemptyheap (h : heap) : res heap :=
  do h1 <- clear_idx h 1 (cur h); Ok (set_cur h1 0).

(** heap.cpp:147-154 makeheap: [for (i = currentsize/2; i > 0; i--) percolatedown(i, heap[i])]. *)
Fixpoint makeheap_loop (h : heap) (i : nat) : res heap :=
  match i with
  | O => Ok h
  | S j => do e <- rd h i; do h1 <- percolatedown h i e; makeheap_loop h1 j
  end.
Definition makeheap (h : heap) : res heap := makeheap_loop h (cur h / 2).

(** heap.cpp:156-176 growheap: slots 0..currentsize are copied, the rest is fresh memory
    (copying the never-written slot 0 is taken as harmless). *)
Definition growheap (h : heap) : heap :=
  let a := (2 * alloc h)%Z in
  let a := if (a >? HEAPSIZE)%Z then HEAPSIZE else a in
  mkHeap (cur h) a (filter (λ p, p.1 <= cur h) (arr h)) (idx h).

(** heap.cpp:178-185 sizecheck. *)
Definition sizecheck (h : heap) : res heap :=
  if fullheap h then Exn h
  else if (Z.of_nat (cur h) =? alloc h - 1)%Z then Ok (growheap h)
  else Ok h.

(** heap.cpp:187-201 / 445-459 insertheap. *)
Definition insertheap (h : heap) (s : nat) (k : K) : res heap :=
  do h <- sizecheck h;
  if (idxof h s =? 0)%nat then
    let h := set_cur h (S (cur h)) in
    percolateup h (cur h) (s, k)
  else Exn h.

(** heap.cpp:203-208 / 461-466 deleteheap. *)
Definition deleteheap (h : heap) (s : nat) : res heap :=
  if (idxof h s =? 0)%nat then Exn h
  else
    let i := idxof h s in
    do e <- rd h (cur h);
    do h1 <- percolateupordown (set_cur h (cur h - 1)) i e;
    Ok (set_idx h1 s 0).

(** heap.cpp:210-217 / 468-475 updateheap. *)
Definition updateheap (h : heap) (s : nat) (k : K) : res heap :=
  if (idxof h s =? 0)%nat then Exn h
  else
    let i := idxof h s in
    do e <- rd h i;
    if kne ops e.2 k then
      do h1 <- wr0 h i (e.1, k);
      do e1 <- rd h1 i;
      percolateupordown h1 i e1
    else Ok h.

(** heap.cpp:219-236 insert_unsafe (CHeap only). *)
Definition insert_unsafe (h : heap) (s : nat) (k : K) : res heap :=
  do h <- sizecheck h;
  if (idxof h s =? 0)%nat then
    let h := set_cur h (S (cur h)) in wr h (cur h) (s, k)
  else Exn h.

(** heap.cpp:238-249 deleteheap_unsafe (CHeap only). *)
Definition deleteheap_unsafe (h : heap) (s : nat) : res heap :=
  if (idxof h s =? 0)%nat then Exn h
  else
    let i := idxof h s in
    do e <- rd h (cur h);
    do h1 <- wr0 h i e;
    let h1 := set_cur h1 (cur h - 1) in
    do e1 <- rd h1 i;
    Ok (set_idx (set_idx h1 (e1.1) i) s 0).

(** heap.cpp:251-259 updateheap_unsafe (CHeap only). *)
Definition updateheap_unsafe (h : heap) (s : nat) (k : K) : res heap :=
  if (idxof h s =? 0)%nat then Exn h
  else
    let i := idxof h s in
    do e <- rd h i;
    if kne ops e.2 k then wr0 h i (e.1, k) else Ok h.

(** heap.cpp:261-275 / 477-490 getminheap (both overloads: state and key of slot 1). *)
Definition getminheap (h : heap) : res elem :=
  if (cur h =? 0)%nat then Exn h else rd h 1.

(** heap.cpp:277-283 / 492-498 getminkeyheap. *)
Definition getminkeyheap (h : heap) : res K :=
  if (cur h =? 0)%nat then Ok (kinf ops) else do e <- rd h 1; Ok e.2.

(** heap.cpp:285-296 / 500-511 deleteminheap. *)
Definition deleteminheap (h : heap) : res (nat * heap) :=
  if (cur h =? 0)%nat then Exn h
  else
    do e <- rd h 1;
    let h := set_idx h (e.1) 0 in
    do l <- rd h (cur h);
    do h1 <- percolatedown (set_cur h (cur h - 1)) 1 l;
    Ok (e.1, h1).

(** Not a method: the loop by which planners overwrite the keys of all stored elements before
    calling makeheap, e.g. araplanner.cpp:488-503 Reevaluatefvals
    ([for (i = 1; i <= heap->currentsize; ++i) heap->heap[i].key = f(heap->heap[i].heapstate, old key)]). *)
Fixpoint rekey_loop (f : nat -> K -> K) (h : heap) (i n : nat) : res heap :=
  match n with
  | O => Ok h
  | S n' => do e <- rd h i; do h1 <- wr0 h i (e.1, f e.1 e.2); rekey_loop f h1 (S i) n'
  end.
Definition rekey (f : nat -> K -> K) (h : heap) : res heap := rekey_loop f h 1 (cur h).

End heap.
Arguments heap K : clear implicits.
Arguments mkHeap {K}.

(** CHeap: keys are CKey. *)
Definition ckeyops : keyops ckey := mkKeyops ckey key_lt key_gt key_ne key_infinity.
(** CIntHeap: keys are int, compared by the built-in operators. *)
Definition intops : keyops Z := mkKeyops Z Z.ltb Z.gtb (λ a b, negb (a =? b)%Z) INFINITECOST.
