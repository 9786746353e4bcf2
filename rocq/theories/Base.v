(** Shared vocabulary of all model files.  No code of /repo is modelled here except the
    few constants cited below. *)
From Coq Require Export ZArith Lia.
From stdpp Require Export prelude gmap numbers list.

(** Result of running a piece of modelled C++ code.
    - [Ok a]    : normal return;
    - [Exn e]   : an SBPL_Exception was thrown, [e] is what the caller can still observe
                  (usually the state of the object at the throw);
    - [UB]      : C++ undefined behaviour (out-of-range or never-written array cell, NULL or
                  dangling pointer, division by zero, signed overflow where it is tracked);
    - [OOF]     : the fuel given to a model loop ran out (not a behaviour of the code: theorems
                  either exclude it or prove that it does not happen). *)
Inductive outcome (E A : Type) : Type :=
| Ok (a : A)
| Exn (e : E)
| UB
| OOF.
Arguments Ok {E A} a.
Arguments Exn {E A} e.
Arguments UB {E A}.
Arguments OOF {E A}.

Definition obind {E A B} (x : outcome E A) (f : A -> outcome E B) : outcome E B :=
  match x with
  | Ok a => f a
  | Exn e => Exn e
  | UB => UB
  | OOF => OOF
  end.

Notation "'do' x <- e1 ; e2" := (obind e1 (fun x => e2))
  (at level 200, x binder, e1 at level 100, e2 at level 200, right associativity).

Lemma obind_ok {E A B} (x : outcome E A) (f : A -> outcome E B) b :
  obind x f = Ok b -> exists a, x = Ok a /\ f a = Ok b.
Proof. destruct x; simpl; intros H; try discriminate. eauto. Qed.

(** /repo/src/include/sbpl/utils/key.h:35 [#define INFINITECOST 1000000000]. *)
Definition INFINITECOST : Z := 1000000000.

(** C conversion to [unsigned int] (32 bit). *)
Definition u32 (z : Z) : Z := (z mod 4294967296)%Z.
(** C conversion to [unsigned short] (16 bit). *)
Definition u16 (z : Z) : Z := (z mod 65536)%Z.

#[global] Arguments Nat.div : simpl never.
#[global] Arguments Nat.modulo : simpl never.
#[global] Arguments Z.mul : simpl never.
#[global] Arguments Z.add : simpl never.
#[global] Arguments Z.sub : simpl never.
#[global] Arguments Z.div : simpl never.
#[global] Arguments Z.modulo : simpl never.
#[global] Arguments Z.quot : simpl never.
#[global] Arguments Z.rem : simpl never.
