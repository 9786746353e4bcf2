(** Model of class CBucket, /repo/src/include/sbpl/utils/list.h:171-426 (bucket priority queue with one bucket per
    priority, one shared overflow bucket and one bucket for infinite priorities).
    Elements are state ids; their field heapindex is the entry of [bHi] (absent: the state was never in a bucket; its value is
    then unspecified).  The index INFINITECOST ("no current minimum") is None.
    firstpriority is 0 all the time: the constructor sets it to 0 and reset never assigns its argument to it.
    Simplifications: numofbuckets < INFINITECOST; the statistics field maxassortedpriorityVsize and the DEBUG branches are left out. *)
From Verif Require Import Base.
Local Open Scope Z_scope.

Inductive bexn := BRange (* std::out_of_range from vector::at *) | BMin (* "in recomputemin in buckets" *) | BAlloc (* new[] of a negative size *).
Notation bres A := (outcome bexn A).

(** list.h:175-187. *)
Record bucket := mkB {
  bV : list (list nat);       (* bucketV; numofbuckets is its length *)
  bAss : list Z;              (* assortedpriorityV *)
  bHi : gmap nat Z;           (* heapindex of the states *)
  bCi : option nat;           (* currentminelement_bucketind *)
  bCp : Z;                    (* currentminelement_priority *)
  bCv : Z                     (* currentminelement_bucketVind *)
}.
Definition nbuckets (b : bucket) : Z := Z.of_nat (length (bV b)).

(** list.h:253-268 makeemptybucketV: the vectors keep their elements. *)
Definition makeemptybucketV (b : bucket) : bucket :=
  mkB (bV b) [] (foldr (fun s h => <[s := -1]> h) (bHi b) (concat (bV b))) None INFINITECOST INFINITECOST.
(** list.h:223-251 reset. *)
Definition breset (b : bucket) (first_priority max_bucketed_priority : Z) : bres bucket :=
  let b := if nbuckets b =? 0 then b else makeemptybucketV b in
  let n := max_bucketed_priority - first_priority + 1 + 2 in
  if n <? 0 then Exn BAlloc
  else Ok (mkB (replicate (Z.to_nat n) []) (bAss b) (bHi b) None INFINITECOST INFINITECOST).
(** list.h:191-202 constructor. *)
Definition new_bucket (first_priority max_bucketed_priority : Z) : bres bucket :=
  breset (mkB [] [] ∅ None INFINITECOST INFINITECOST) first_priority max_bucketed_priority.

(** list.h:218-221 empty, 313-316 getminpriority. *)
Definition bempty (b : bucket) : bool := match bCi b with None => true | Some _ => false end.
Definition getminpriority (b : bucket) : Z := bCp b.

(** vector::at. *)
Definition vat {A} (l : list A) (i : Z) : bres A :=
  if i <? 0 then Exn BRange else match l !! Z.to_nat i with Some x => Ok x | None => Exn BRange end.
(** bucketV[i] (plain array access). *)
Definition bk (b : bucket) (i : Z) : bres (list nat) :=
  if i <? 0 then UB else match bV b !! Z.to_nat i with Some x => Ok x | None => UB end.

(** list.h:270-288 getminelement. *)
Definition bgetmin (b : bucket) : bres (option nat) :=
  match bCi b with
  | None => Ok None
  | Some i => do l <- bk b (Z.of_nat i); do s <- vat l (bCv b); Ok (Some s)
  end.

(** list.h:382-424 recomputeminelementupfrombucket: the search for a non-empty bucket ... *)
Fixpoint first_nonempty (l : list (list nat)) (i : nat) : nat :=
  match l with
  | [] => i
  | x :: l => match x with [] => first_nonempty l (S i) | _ => i end
  end.
(** ... and the scan of the overflow bucket (392-404). *)
Fixpoint scan_ass (n : nat) (e : Z) (ass : list Z) (cp cv : Z) : bres (Z * Z) :=
  match n with
  | O => Ok (cp, cv)
  | S n =>
    do a <- vat ass e;
    if cp >? a then scan_ass n (e + 1) ass a e else scan_ass n (e + 1) ass cp cv
  end.
Definition recompute (b : bucket) (start : Z) : bres bucket :=
  let bind := Z.of_nat (first_nonempty (drop (Z.to_nat start) (bV b)) (Z.to_nat start)) in
  let cur i p v := mkB (bV b) (bAss b) (bHi b) i p v in
  if bind <? nbuckets b - 2 then Ok (cur (Some (Z.to_nat bind)) (0 + bind) 0)
  else if bind =? nbuckets b - 2 then
    do l <- bk b bind;
    do r <- scan_ass (length l) 0 (bAss b) INFINITECOST INFINITECOST;
    if r.1 =? INFINITECOST then Exn BMin
    else Ok (cur (Some (Z.to_nat bind)) r.1 r.2)
  else if bind =? nbuckets b - 1 then Ok (cur (Some (Z.to_nat bind)) INFINITECOST 0)
  else Ok (cur None INFINITECOST INFINITECOST).

(** list.h:329-355 insert. *)
Definition insert_index (b : bucket) (priority : Z) : Z :=
  if priority =? INFINITECOST then nbuckets b - 1
  else if priority - 0 >=? nbuckets b - 2 then nbuckets b - 2 else priority - 0.
Definition binsert (b : bucket) (s : nat) (priority : Z) : bres bucket :=
  let i := insert_index b priority in
  do l <- bk b i;
  let b := mkB (<[Z.to_nat i := l ++ [s]]> (bV b))
               (if i =? nbuckets b - 2 then bAss b ++ [priority] else bAss b)
               (<[s := Z.of_nat (length l)]> (bHi b)) (bCi b) (bCp b) (bCv b) in
  if (priority <? bCp b) || (bCp b =? INFINITECOST) then recompute b i else Ok b.

(** list.h:358-380 removestategivenbucketindex: the overflow priorities are never shortened. *)
Definition bremove_at (b : bucket) (s : nat) (i : Z) : bres bucket :=
  match bHi b !! s with
  | None => UB                                              (* heapindex was never written *)
  | Some r =>
    do l <- bk b i;
    let last := Z.of_nat (length l) - 1 in
    do ass <- (if i =? nbuckets b - 2 then
                 do x <- vat (bAss b) last; do _ <- vat (bAss b) r; Ok (<[Z.to_nat r := x]> (bAss b))
               else Ok (bAss b));
    do t <- vat l last;
    do _ <- vat l r;
    let l' := take (length l - 1) (<[Z.to_nat r := t]> l) in
    let b := mkB (<[Z.to_nat i := l']> (bV b)) ass (<[s := -1]> (<[t := r]> (bHi b))) (bCi b) (bCp b) (bCv b) in
    if bool_decide (bCi b = Some (Z.to_nat i)) && ((length l' =? 0)%nat || (i =? nbuckets b - 2)) then recompute b i else Ok b
  end.
(** list.h:290-311 popminelement. *)
Definition bpop (b : bucket) : bres (option nat * bucket) :=
  match bCi b with
  | None => Ok (None, b)
  | Some i =>
    do l <- bk b (Z.of_nat i);
    do s <- vat l (bCv b);
    do b <- bremove_at b s (Z.of_nat i);
    Ok (Some s, b)
  end.
(** list.h:318-327 remove. *)
Definition bremove (b : bucket) (s : nat) (priority : Z) : bres bucket :=
  let i := if priority =? INFINITECOST then nbuckets b - 1
           else if priority - 0 >? nbuckets b - 2 then nbuckets b - 2 else priority - 0 in
  bremove_at b s i.
