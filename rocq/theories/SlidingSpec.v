(** What C09 means: a stable priority queue on a sliding window of priorities. *)
From Verif Require Import Base SlidingModel.
Local Open Scope Z_scope.

Inductive sop := SInsert (s : nat) (p : Z) | SPop | SGetMin | SEmpty | SMinKey | SReset.
Inductive sans := ADone | AInvalid | AFull | AState (s : option nat) | ABool (b : bool) | AKey (p : Z).
(** One call; the caller catches the exceptions of insert and goes on using the object. *)
Definition sstep (b : sbk) (o : sop) : outcome unit (sans * sbk) :=
  let catch (r : sres (sans * sbk)) := match r with
    | Ok x => Ok x | Exn (SInvalid b) => Ok (AInvalid, b) | Exn (SFull b) => Ok (AFull, b) | Exn (SCreate _) => Exn tt | UB => UB | OOF => OOF end in
  catch (match o with
  | SInsert s p => do b <- sinsert b s p; Ok (ADone, b)
  | SPop => do r <- spop b; Ok (AState r.1, r.2)
  | SGetMin => do r <- sgetmin b; Ok (AState r.1, r.2)
  | SEmpty => Ok (ABool (sempty b), b)
  | SMinKey => Ok (AKey (getminkey b), b)
  | SReset => Ok (ADone, sreset b)
  end).
Fixpoint srun (b : sbk) (os : list sop) : outcome unit (list sans * sbk) :=
  match os with
  | [] => Ok ([], b)
  | o :: os => do r <- sstep b o; do r2 <- srun r.2 os; Ok (r.1 :: r2.1, r2.2)
  end.

(** The queue: the priority of the last popped element (0 at the start), the elements in the order in which they will be popped; how
    many slots of the bucket of [wF] have been used up by popped elements; is the stored minimum key out of date? *)
Record win := mkW { wF : Z; wq : list (Z * nat); wk : Z; wold : bool }.
Definition w0 : win := mkW 0 [] 0 true.
(** Insertion behind all elements of the same or a lower priority. *)
Fixpoint place (p : Z) (s : nat) (q : list (Z * nat)) : list (Z * nat) :=
  match q with
  | [] => [(p, s)]
  | e :: q' => if p <? e.1 then (p, s) :: q else e :: place p s q'
  end.
Definition atprio (p : Z) (q : list (Z * nat)) : list nat := (filter (fun e => e.1 = p) q).*2.
(** The slots in use in the bucket of priority [p]. *)
Definition slots (w : win) (p : Z) : Z := Z.of_nat (length (atprio p (wq w))) + (if p =? wF w then wk w else 0).
Definition wstep (n : Z) (w : win) (o : sop) : sans * win :=
  match o with
  | SInsert s p =>
    if (0 <=? p - wF w) && (p - wF w <? n) then (ADone, mkW (wF w) (place p s (wq w)) (wk w) (wold w && negb (p =? wF w)))
    else (AInvalid, w)
  | SPop =>
    match wq w with
    | [] => (AState None, w)
    | (p, s) :: q =>
      let next := match q with (p', _) :: _ => p' =? p | [] => false end in
      (AState (Some s), mkW p q (if next then (if p =? wF w then wk w + 1 else 1) else 0) (match q with [] => true | _ => false end))
    end
  | SGetMin => (AState (snd <$> head (wq w)), mkW (wF w) (wq w) (wk w) (match wq w with [] => wold w | _ => false end))
  | SEmpty => (ABool (match wq w with [] => true | _ => false end), w)
  | SMinKey => (AKey (if wold w then wF w else match wq w with [] => 0 | e :: _ => e.1 end), w)
  | SReset => (ADone, w0)
  end.
Fixpoint wrun (n : Z) (w : win) (os : list sop) : list sans * win :=
  match os with
  | [] => ([], w)
  | o :: os => let r := wstep n w o in let r2 := wrun n r.2 os in (r.1 :: r2.1, r2.2)
  end.
(** No insertion finds the bucket of its priority full. *)
Fixpoint roomy (n size : Z) (w : win) (os : list sop) : Prop :=
  match os with
  | [] => True
  | o :: os =>
    match o with SInsert s p => 0 <= p - wF w < n -> slots w p < size | _ => True end /\ roomy n size (wstep n w o).2 os
  end.
