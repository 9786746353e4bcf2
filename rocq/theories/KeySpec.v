(** What a user expects of CKey: lexicographic order on pairs of integers.  No model term here. *)
From Coq Require Import ZArith.
Local Open Scope Z_scope.
Definition lex_lt (a b : Z * Z) : Prop :=
  fst a < fst b \/ (fst a = fst b /\ snd a < snd b).
