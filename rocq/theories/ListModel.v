(** Model of class CList, /repo/src/include/sbpl/utils/list.h:51-168 (intrusive doubly linked
    list).  A state is a number; its field [listelem[listindex]] for the one listindex this list is
    used with is the entry of [elem].  Nodes live in a heap [nodes] of addresses; [free] removes
    the node, so a later access through a dangling pointer is [UB].
    Simplification: malloc never fails and hands out the next unused address (addresses are
    only compared with NULL). *)
From Verif Require Import Base.

(** list.h:40 [#define LISTSIZE 5000000]. *)
Definition LISTSIZE : Z := 5000000.

(** list.h:42-47 struct listelement. *)
Record lnode := mkNode { nst : nat; nprev : option nat; nnext : option nat }.

(** list.h:53-57 (and the heap of nodes / listelem fields of the states). *)
Record clist := mkList {
  cfirst : option nat;
  clast : option nat;
  csize : nat;
  nodes : gmap nat lnode;
  elem : gmap nat nat;
  nextaddr : nat
}.
Notation lres A := (outcome clist A).

(** list.h:61-66 CList::CList. *)
Definition new_list : clist := mkList None None 0 ∅ ∅ 0.

(** Dereference of a node pointer. *)
Definition deref (l : clist) (a : nat) : lres lnode :=
  match nodes l !! a with Some n => Ok n | None => UB end.
Definition set_next (l : clist) (a : nat) (v : option nat) : lres clist :=
  do n <- deref l a;
  Ok (mkList (cfirst l) (clast l) (csize l) (<[a := mkNode (nst n) (nprev n) v]> (nodes l)) (elem l) (nextaddr l)).
Definition set_prev (l : clist) (a : nat) (v : option nat) : lres clist :=
  do n <- deref l a;
  Ok (mkList (cfirst l) (clast l) (csize l) (<[a := mkNode (nst n) v (nnext n)]> (nodes l)) (elem l) (nextaddr l)).
Definition set_first (l : clist) (v : option nat) : clist :=
  mkList v (clast l) (csize l) (nodes l) (elem l) (nextaddr l).
Definition set_last (l : clist) (v : option nat) : clist :=
  mkList (cfirst l) v (csize l) (nodes l) (elem l) (nextaddr l).

(** list.h:74 empty. *)
Definition list_empty (l : clist) : bool := (csize l =? 0)%nat.
(** list.h:76 full. *)
Definition list_full (l : clist) : bool := (Z.of_nat (csize l) >=? LISTSIZE)%Z.
(** list.h:78-81 in. *)
Definition list_in (l : clist) (s : nat) : bool :=
  match elem l !! s with Some _ => true | None => false end.

(** list.h:89-107 insert (insertinfront, 109-112, is the same). *)
Definition list_insert (l : clist) (s : nat) : lres clist :=
  if (Z.of_nat (csize l) >=? LISTSIZE)%Z then Exn l
  else if list_in l s then Exn l
  else
    let a := nextaddr l in
    let l1 := mkList (cfirst l) (clast l) (csize l)
                     (<[a := mkNode s None (cfirst l)]> (nodes l)) (elem l) (S a) in
    do l2 <- (match cfirst l1 with Some f => set_prev l1 f (Some a) | None => Ok l1 end);
    let l3 := set_first l2 (Some a) in
    let l4 := match clast l3 with None => set_last l3 (Some a) | Some _ => l3 end in
    Ok (mkList (cfirst l4) (clast l4) (S (csize l4)) (nodes l4) (<[s := a]> (elem l4)) (nextaddr l4)).

(** list.h:114-144 remove. *)
Definition list_remove (l : clist) (s : nat) : lres clist :=
  match elem l !! s with
  | None => Exn l
  | Some a =>
    if (csize l =? 0)%nat then Exn l
    else
      do n <- deref l a;
      do l1 <-
        match nprev n, nnext n with
        | Some p, Some q => do l' <- set_next l p (Some q); set_prev l' q (Some p)
        | Some p, None => do l' <- set_next l p None; Ok (set_last l' (Some p))
        | None, Some q => do l' <- set_prev l q None; Ok (set_first l' (Some q))
        | None, None => Ok (set_last (set_first l None) None)
        end;
      Ok (mkList (cfirst l1) (clast l1) (csize l1 - 1) (delete a (nodes l1)) (delete s (elem l1)) (nextaddr l1))
  end.

(** list.h:83-87 makeemptylist: [while (firstelement != NULL) remove(firstelement->liststate)]. *)
Fixpoint makeempty_loop (fuel : nat) (l : clist) : lres clist :=
  match cfirst l with
  | None => Ok l
  | Some f =>
    match fuel with
    | O => OOF
    | S fuel' => do n <- deref l f; do l1 <- list_remove l (nst n); makeempty_loop fuel' l1
    end
  end.
Definition makeemptylist (l : clist) : lres clist := makeempty_loop (csize l) l.

(** list.h:146-152 getfirst, 154-160 getlast (NULL is [None]). *)
Definition getfirst (l : clist) : lres (option nat) :=
  match cfirst l with None => Ok None | Some a => do n <- deref l a; Ok (Some (nst n)) end.
Definition getlast (l : clist) : lres (option nat) :=
  match clast l with None => Ok None | Some a => do n <- deref l a; Ok (Some (nst n)) end.
(** list.h:162-168 getnext: dereferences listelem without a test. *)
Definition getnext (l : clist) (s : nat) : lres (option nat) :=
  match elem l !! s with
  | None => UB
  | Some a =>
    do n <- deref l a;
    match nnext n with None => Ok None | Some b => do m <- deref l b; Ok (Some (nst m)) end
  end.
