(** Model of class CKey, /repo/src/include/sbpl/utils/key.h (KEY_SIZE == 2, line 36).
    [long int] components are unbounded integers here (the operators only compare). *)
From Verif Require Import Base.
Local Open Scope Z_scope.

(** key.h:39-40  [long int key[KEY_SIZE]]. *)
Record ckey := mkKey { k0 : Z; k1 : Z }.

(** key.h:64-69 SetKeytoInfinity; heap.cpp:42-47 InfiniteKey(). *)
Definition key_infinity : ckey := mkKey INFINITECOST INFINITECOST.
(** key.h:71-76 SetKeytoZero; key.h:44-58 CKey() (the constructor zeroes too). *)
Definition key_zero : ckey := mkKey 0 0.
(** key.h:93-103 operator -. *)
Definition key_sub (a b : ckey) : ckey := mkKey (k0 a - k0 b) (k1 a - k1 b).
(** key.h:105-125 operator > (the KEY_SIZE==2 branch, line 112). *)
Definition key_gt (a b : ckey) : bool :=
  (k0 a >? k0 b) || ((k0 a =? k0 b) && (k1 a >? k1 b)).
(** key.h:127-147 operator == (line 134). *)
Definition key_eq (a b : ckey) : bool := (k0 a =? k0 b) && (k1 a =? k1 b).
(** key.h:149-152 operator !=. *)
Definition key_ne (a b : ckey) : bool := negb (key_eq a b).
(** key.h:154-174 operator < (line 161). *)
Definition key_lt (a b : ckey) : bool :=
  (k0 a <? k0 b) || ((k0 a =? k0 b) && (k1 a <? k1 b)).
(** key.h:176 operator >=. *)
Definition key_ge (a b : ckey) : bool := negb (key_lt a b).
(** key.h:178 operator <=. *)
Definition key_le (a b : ckey) : bool := negb (key_gt a b).
