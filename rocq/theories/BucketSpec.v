(** What C08 means: a set of states with priorities. *)
From Verif Require Import Base BucketModel.
Local Open Scope Z_scope.

Inductive bop := BInsert (s : nat) (p : Z) | BRemove (s : nat) (p : Z) | BPop | BGetMin | BMinPriority | BEmpty.
Inductive bans := BDone | BState (s : option nat) | BPrio (p : Z) | BBool (b : bool).
(** One call on the object. *)
Definition bstep (b : bucket) (o : bop) : bres (bans * bucket) :=
  match o with
  | BInsert s p => do b <- binsert b s p; Ok (BDone, b)
  | BRemove s p => do b <- bremove b s p; Ok (BDone, b)
  | BPop => do r <- bpop b; Ok (BState r.1, r.2)
  | BGetMin => do r <- bgetmin b; Ok (BState r, b)
  | BMinPriority => Ok (BPrio (getminpriority b), b)
  | BEmpty => Ok (BBool (bempty b), b)
  end.
Fixpoint brun (b : bucket) (os : list bop) : bres (list bans * bucket) :=
  match os with
  | [] => Ok ([], b)
  | o :: os => do r <- bstep b o; do r2 <- brun r.2 os; Ok (r.1 :: r2.1, r2.2)
  end.

(** [m]: the states in the queue and their priorities; [d]: a state has already been taken out of the overflow bucket.
    [top]: the first priority without a bucket of its own. *)
Section spec.
Context (top : Z).
Definition overflow (p : Z) : bool := (top <=? p) && (p <? INFINITECOST).
Definition is_min (m : gmap nat Z) (s : nat) (p : Z) : Prop := m !! s = Some p /\ forall s' p', m !! s' = Some p' -> p <= p'.
Definition out (d : bool) (p : Z) : bool := d || overflow p.
Inductive bspec : gmap nat Z -> bool -> bop -> bans -> gmap nat Z -> bool -> Prop :=
| bs_insert m d s p : bspec m d (BInsert s p) BDone (<[s := p]> m) d
| bs_remove m d s p : bspec m d (BRemove s p) BDone (delete s m) (out d p)
| bs_pop_none d : bspec ∅ d BPop (BState None) ∅ d
| bs_pop m d s p : is_min m s p -> bspec m d BPop (BState (Some s)) (delete s m) (out d p)
| bs_get_none d : bspec ∅ d BGetMin (BState None) ∅ d
| bs_get m d s p : is_min m s p -> bspec m d BGetMin (BState (Some s)) m d
| bs_prio_none d : bspec ∅ d BMinPriority (BPrio INFINITECOST) ∅ d
| bs_prio m d s p : is_min m s p -> bspec m d BMinPriority (BPrio p) m d
| bs_empty m d : bspec m d BEmpty (BBool (bool_decide (m = ∅))) m d.
(** Calls allowed: a state is inserted only when not inside, with a priority in 0..INFINITECOST, and not into the overflow bucket
    after something was taken out of it; removed only when inside, with its priority. *)
Definition ballowed (m : gmap nat Z) (d : bool) (o : bop) : Prop :=
  match o with
  | BInsert s p => m !! s = None /\ 0 <= p <= INFINITECOST /\ (overflow p = true -> d = false)
  | BRemove s p => m !! s = Some p
  | _ => True
  end.
Fixpoint ballowed_all (m : gmap nat Z) (d : bool) (os : list bop) : Prop :=
  match os with
  | [] => True
  | o :: os => ballowed m d o /\ forall a m' d', bspec m d o a m' d' -> ballowed_all m' d' os
  end.
Inductive bhist : gmap nat Z -> bool -> list bop -> list bans -> gmap nat Z -> bool -> Prop :=
| bh_nil m d : bhist m d [] [] m d
| bh_cons m d o a m1 d1 os rs m2 d2 : bspec m d o a m1 d1 -> bhist m1 d1 os rs m2 d2 -> bhist m d (o :: os) (a :: rs) m2 d2.
End spec.
