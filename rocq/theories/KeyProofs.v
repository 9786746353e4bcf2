From Coq Require Import Bool.
From Verif Require Import Base KeyModel KeySpec.
From Coq Require Import ZifyBool.
Local Open Scope Z_scope.

Definition kp (a : ckey) : Z * Z := (k0 a, k1 a).

Lemma key_lt_lex a b : key_lt a b = true <-> lex_lt (kp a) (kp b).
Proof. unfold key_lt, lex_lt, kp; simpl; lia. Qed.
Lemma key_eq_iff a b : key_eq a b = true <-> a = b.
Proof.
  destruct a, b; unfold key_eq; simpl; split.
  - intros H. f_equal; lia.
  - intros H; injection H; lia.
Qed.
Lemma key_gt_lt a b : key_gt a b = key_lt b a.
Proof. unfold key_gt, key_lt; lia. Qed.
Lemma key_le_lt a b : key_le a b = negb (key_lt b a).
Proof. unfold key_le. by rewrite key_gt_lt. Qed.
Lemma key_le_iff a b : key_le a b = true <-> lex_lt (kp a) (kp b) \/ a = b.
Proof.
  rewrite <- key_eq_iff, <- key_lt_lex. unfold key_le, key_gt, key_lt, key_eq; lia.
Qed.
Lemma key_ge_iff a b : key_ge a b = true <-> lex_lt (kp b) (kp a) \/ a = b.
Proof.
  rewrite <- key_eq_iff, <- key_lt_lex. unfold key_ge, key_lt, key_eq; lia.
Qed.
Lemma key_lt_irrefl a : key_lt a a = false.
Proof. unfold key_lt; lia. Qed.
Lemma key_lt_trans a b c : key_lt a b = true -> key_lt b c = true -> key_lt a c = true.
Proof. unfold key_lt; lia. Qed.
Lemma key_lt_negtrans a b c : key_lt a c = true -> key_lt a b = true \/ key_lt b c = true.
Proof. unfold key_lt; lia. Qed.
Lemma key_trichotomy a b :
  (key_lt a b = true /\ key_eq a b = false /\ key_gt a b = false) \/
  (key_lt a b = false /\ key_eq a b = true /\ key_gt a b = false) \/
  (key_lt a b = false /\ key_eq a b = false /\ key_gt a b = true).
Proof. unfold key_lt, key_eq, key_gt; lia. Qed.
Lemma key_infinity_lub a : k0 a < INFINITECOST -> key_lt a key_infinity = true.
Proof. unfold key_lt, key_infinity; simpl; lia. Qed.
Lemma key_sub_zero a : key_sub a a = key_zero.
Proof. unfold key_sub, key_zero. f_equal; lia. Qed.
