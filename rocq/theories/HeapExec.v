(** Running a list of API calls against the heap model.  A thrown SBPL_Exception is caught by
    the caller, who goes on with the object in the state left by the throw. *)
From Verif Require Import Base KeyModel HeapModel HeapSpec.

Section exec.
Context {K : Type} (ops : keyops K).

Definition catchu (x : outcome (heap K) (heap K)) : outcome unit (hret K * heap K) :=
  match x with
  | Ok h => Ok (RUnit, h) | Exn h => Ok (RThrow, h) | UB => UB | OOF => OOF
  end.
Definition catchv {A} (h : heap K) (f : A -> hret K * heap K) (x : outcome (heap K) A)
  : outcome unit (hret K * heap K) :=
  match x with
  | Ok a => Ok (f a) | Exn h' => Ok (RThrow, h') | UB => UB | OOF => OOF
  end.

Definition exec (h : heap K) (o : hop K) : outcome unit (hret K * heap K) :=
  match o with
  | OInsert s k => catchu (insertheap ops h s k)
  | ODelete s => catchu (deleteheap ops h s)
  | OUpdate s k => catchu (updateheap ops h s k)
  | ODeleteMin => catchv h (fun p => (RState p.1, p.2)) (deleteminheap ops h)
  | OGetMin => catchv h (fun e => (RElem e.1 e.2, h)) (getminheap h)
  | OGetMinKey => catchv h (fun k => (RKey k, h)) (getminkeyheap ops h)
  | OGetKey s => catchv h (fun k => (RKey k, h)) (getkeyheap h s)
  | OInHeap s => Ok (RBool (inheap h s), h)
  | OIsEmpty => Ok (RBool (emptyheap h), h)
  | OMakeEmpty => catchu (makeemptyheap h)
  | OInsertUnsafe s k => catchu (insert_unsafe h s k)
  | ODeleteUnsafe s => catchu (deleteheap_unsafe h s)
  | OUpdateUnsafe s k => catchu (updateheap_unsafe ops h s k)
  | ORekey f => catchu (rekey f h)
  | OMakeHeap => catchu (makeheap ops h)
  end.

Fixpoint run (h : heap K) (os : list (hop K)) : outcome unit (list (hret K) * heap K) :=
  match os with
  | [] => Ok ([], h)
  | o :: os' =>
      do p <- exec h o;
      do q <- run p.2 os';
      Ok (p.1 :: q.1, q.2)
  end.
End exec.
