(** Plane geometry used to state the footprint properties; independent of the model. *)
From Coq Require Import QArith.
From Verif Require Import Base.
Local Open Scope Q_scope.

(** Twice the signed area of the triangle p, q, t: positive iff t is strictly left of p->q. *)
Definition orient (p q t : Q * Q) : Q := (q.1 - p.1) * (t.2 - p.2) - (q.2 - p.2) * (t.1 - p.1).
(** t strictly inside / strictly outside the counter-clockwise triangle a, b, c. *)
Definition strictly_in_ccw (a b c t : Q * Q) : Prop := 0 < orient a b t /\ 0 < orient b c t /\ 0 < orient c a t.
Definition strictly_out_ccw (a b c t : Q * Q) : Prop := orient a b t < 0 \/ orient b c t < 0 \/ orient c a t < 0.
