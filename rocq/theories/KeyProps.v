(** C01.  Only statements; every proof is [exact lemma]. *)
From Verif Require Import Base KeyModel KeySpec KeyProofs.
Local Open Scope Z_scope.

(** The six operators of CKey are exactly the lexicographic order on pairs of integers. *)
Theorem C01_lt_is_lexicographic : forall a b,
  key_lt a b = true <-> lex_lt (k0 a, k1 a) (k0 b, k1 b).
Proof. exact key_lt_lex. Qed.
Print Assumptions C01_lt_is_lexicographic.

Theorem C01_gt_is_flipped_lt : forall a b, key_gt a b = key_lt b a.
Proof. exact key_gt_lt. Qed.
Print Assumptions C01_gt_is_flipped_lt.

Theorem C01_eq_is_equality : forall a b, key_eq a b = true <-> a = b.
Proof. exact key_eq_iff. Qed.
Print Assumptions C01_eq_is_equality.

Theorem C01_le_spec : forall a b,
  key_le a b = true <-> lex_lt (k0 a, k1 a) (k0 b, k1 b) \/ a = b.
Proof. exact key_le_iff. Qed.
Print Assumptions C01_le_spec.

Theorem C01_ge_spec : forall a b,
  key_ge a b = true <-> lex_lt (k0 b, k1 b) (k0 a, k1 a) \/ a = b.
Proof. exact key_ge_iff. Qed.
Print Assumptions C01_ge_spec.

Theorem C01_irreflexive : forall a, key_lt a a = false.
Proof. exact key_lt_irrefl. Qed.
Print Assumptions C01_irreflexive.

Theorem C01_transitive : forall a b c,
  key_lt a b = true -> key_lt b c = true -> key_lt a c = true.
Proof. exact key_lt_trans. Qed.
Print Assumptions C01_transitive.

(** Exactly one of <, ==, > holds. *)
Theorem C01_trichotomy : forall a b,
  (key_lt a b = true /\ key_eq a b = false /\ key_gt a b = false) \/
  (key_lt a b = false /\ key_eq a b = true /\ key_gt a b = false) \/
  (key_lt a b = false /\ key_eq a b = false /\ key_gt a b = true).
Proof. exact key_trichotomy. Qed.
Print Assumptions C01_trichotomy.

(** Every key with a first component below INFINITECOST is below the infinite key. *)
Theorem C01_infinite_key_is_above : forall a, k0 a < INFINITECOST -> key_lt a key_infinity = true.
Proof. exact key_infinity_lub. Qed.
Print Assumptions C01_infinite_key_is_above.

Example C01_nonvacuous :
  key_lt (mkKey 3 9) (mkKey 4 0) = true /\ key_lt (mkKey 4 0) (mkKey 4 1) = true
  /\ key_lt (mkKey 4 1) key_infinity = true.
Proof. vm_compute. auto. Qed.
