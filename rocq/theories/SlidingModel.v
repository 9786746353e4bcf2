(** Model of class CSlidingBucket, /repo/src/include/sbpl/utils/list.h:427-682 (bucket queue for monotone priorities, on a ring of
    buckets).  A stored pointer is Some state id, NULL is None.
    Simplifications: C++ int arithmetic is not bounded here; the constructor's num_of_buckets is >= 0 (new[] of a negative size
    throws std::bad_array_new_length); malloc and realloc succeed; the loop of recomputeandreturnmin gets fuel (theorems prove that it
    never runs out). *)
From Verif Require Import Base.
Local Open Scope Z_scope.

(** list.h:431-444; dynamicsize[i] is the length of the allocated bucket (it is read only for allocated buckets). *)
Record sbk := mkS {
  sN : Z;                                   (* numofbuckets *)
  sSize : Z;                                (* bucketsize *)
  sInit : Z;                                (* initialdynamicsize *)
  sV : list (option (list (option nat)));   (* bucketV *)
  sLast : list Z;                           (* lastelementindexV *)
  sBi : Z;                                  (* currentminelement_bindex *)
  sIx : Z;                                  (* currentminelement_index *)
  sMax : Z;                                 (* currentmaxelement_priority *)
  sMin : Z;                                 (* currentminelement_priority *)
  sFb : Z;                                  (* currentfirstbucket_bindex *)
  sFp : Z                                   (* currentfirstbucket_priority *)
}.
(** An exception leaves the object in the given state. *)
Inductive sexn := SInvalid (b : sbk) | SFull (b : sbk) | SCreate (b : sbk).
Notation sres A := (outcome sexn A).

(** list.h:449-475 constructor. *)
Definition new_sbk (num_of_buckets bucket_size initial_dynamic_size : Z) : sbk :=
  mkS num_of_buckets bucket_size (Z.max 0 initial_dynamic_size) (replicate (Z.to_nat num_of_buckets) None)
      (replicate (Z.to_nat num_of_buckets) (-1)) 0 (-1) 0 0 0 0.

(** Plain array access. *)
Definition aget {A} (l : list A) (i : Z) : sres A :=
  if i <? 0 then UB else match l !! Z.to_nat i with Some x => Ok x | None => UB end.
Definition aset {A} (l : list A) (i : Z) (x : A) : sres (list A) :=
  if i <? 0 then UB else match l !! Z.to_nat i with Some _ => Ok (<[Z.to_nat i := x]> l) | None => UB end.

(** list.h:496-499 empty, 501-504 getminkey. *)
Definition sempty (b : sbk) : bool := (sIx b =? -1) && (sMax b =? sMin b).
Definition getminkey (b : sbk) : Z := sMin b.

(** list.h:506-527 reset; 516-524: the buckets stay allocated. *)
Definition sreset (b : sbk) : sbk :=
  mkS (sN b) (sSize b) (sInit b)
      (map (fun o => match o with None => None | Some a => Some (replicate (length a) None) end) (sV b))
      (map (fun _ => -1) (sLast b)) 0 (-1) 0 0 0 0.

(** list.h:629-630, 542-543: is there no element at the current index? *)
Definition nohere (b : sbk) : sres bool :=
  if sIx b =? -1 then Ok true
  else do o <- aget (sV b) (sBi b);
       match o with
       | None => Ok true
       | Some a => do e <- aget a (sIx b); Ok (match e with None => true | Some _ => false end)
       end.
(** list.h:629-650, the loop. *)
Fixpoint rloop (fuel : nat) (b : sbk) : sres (option nat * sbk) :=
  match fuel with
  | O => OOF
  | S fuel =>
    do no <- nohere b;
    if (no : bool) then
      do last <- aget (sLast b) (sBi b);
      if sIx b <? last then rloop fuel (mkS (sN b) (sSize b) (sInit b) (sV b) (sLast b) (sBi b) (sIx b + 1) (sMax b) (sMin b) (sFb b) (sFp b))
      else
        do ls <- aset (sLast b) (sBi b) (-1);
        if sMin b =? sMax b then Ok (None, mkS (sN b) (sSize b) (sInit b) (sV b) ls (sBi b) (-1) (sMin b) (sMin b) (sFb b) (sFp b))
        else if sN b =? 0 then UB
        else rloop fuel (mkS (sN b) (sSize b) (sInit b) (sV b) ls (Z.rem (sBi b + 1) (sN b)) 0 (sMax b) (sMin b + 1) (sFb b) (sFp b))
    else
      do o <- aget (sV b) (sBi b);
      match o with None => UB | Some a => do e <- aget a (sIx b); Ok (e, b) end
  end.
(** list.h:626-653 recomputeandreturnmin.  The fuel: every bucket from the current priority to the greatest one, every slot of it. *)
Definition srecompute (b : sbk) : sres (option nat * sbk) :=
  if sempty b then Ok (None, b)
  else rloop (Z.to_nat (sMax b - sMin b + 1) * (Z.to_nat (sSize b) + 2) + 1) b.

(** list.h:529-554 popminelement. *)
Definition spop (b : sbk) : sres (option nat * sbk) :=
  if sempty b then Ok (None, b)
  else
    do no <- nohere b;
    do r <- (if (no : bool) then srecompute b
             else do o <- aget (sV b) (sBi b); match o with None => UB | Some a => do e <- aget a (sIx b); Ok (e, b) end);
    let b := r.2 in
    do o <- aget (sV b) (sBi b);
    match o with
    | None => UB
    | Some a =>
      do a <- aset a (sIx b) None;
      do v <- aset (sV b) (sBi b) (Some a);
      do r2 <- srecompute (mkS (sN b) (sSize b) (sInit b) v (sLast b) (sBi b) (sIx b) (sMax b) (sMin b) (sBi b) (sMin b));
      Ok (r.1, r2.2)
    end.
(** list.h:556-570 getminelement. *)
Definition sgetmin (b : sbk) : sres (option nat * sbk) :=
  if sempty b then Ok (None, b)
  else
    do no <- nohere b;
    if (no : bool) then srecompute b
    else do o <- aget (sV b) (sBi b); match o with None => UB | Some a => do e <- aget a (sIx b); Ok (e, b) end.

(** list.h:655-676 createbucket (called only for NULL buckets). *)
Definition screate (b : sbk) : list (option nat) :=
  replicate (Z.to_nat (if sInit b =? 0 then sSize b else sInit b)) None.
(** list.h:596-613, the resizing. *)
Definition sgrow (b : sbk) (a : list (option nat)) (last : Z) : list (option nat) :=
  if sInit b =? 0 then a
  else if last >=? Z.of_nat (length a) then
    let new_size := Z.min (Z.of_nat (length a) * 2) (sSize b) in
    if new_size =? Z.of_nat (length a) then a
    else take (Z.to_nat new_size) a ++ replicate (Z.to_nat new_size - length a) None
  else a.
(** list.h:572-623 insert. *)
Definition sinsert (b : sbk) (s : nat) (priority : Z) : sres sbk :=
  let increment := priority - sFp b in
  if sN b =? 0 then UB
  else
    let i := Z.rem (sFb b + increment) (sN b) in
    if (increment >=? sN b) || (increment <? 0) then Exn (SInvalid b)
    else
      do last <- aget (sLast b) i;
      let last := last + 1 in
      do ls <- aset (sLast b) i last;
      let b := mkS (sN b) (sSize b) (sInit b) (sV b) ls (sBi b) (sIx b) (sMax b) (sMin b) (sFb b) (sFp b) in
      if last =? sSize b then Exn (SFull b)
      else
        do o <- aget (sV b) i;
        let a := match o with None => screate b | Some a => a end in
        let a := sgrow b a last in
        do a <- aset a last (Some s);
        do v <- aset (sV b) i (Some a);
        let mx := if priority >? sMax b then priority else sMax b in
        let mn := if priority <? sMin b then priority else sMin b in
        let bi := if priority <? sMin b then i else sBi b in
        let ix := if (bi =? i) && (sIx b =? -1) then 0 else sIx b in
        Ok (mkS (sN b) (sSize b) (sInit b) v (sLast b) bi ix mx mn (sFb b) (sFp b)).
