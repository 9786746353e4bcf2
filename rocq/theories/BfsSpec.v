(** Shortest obstacle-free distances on a grid, independent of the BFS code. *)
From Verif Require Import Base.
Local Open Scope Z_scope.

Section spec.
Context {C : Type} (allowed : C -> Prop) (adj : C -> C -> Prop) (src : C -> Prop).
(** [walk n c]: there is a walk with n steps from a source to c, each step to an adjacent cell that
    is allowed (inside the grid and below the obstacle threshold). The source itself may be anything. *)
Inductive walk : nat -> C -> Prop :=
| walk_src c : src c -> walk 0 c
| walk_step n c c' : walk n c -> adj c c' -> allowed c' -> walk (S n) c'.
(** The documented meaning of a distance value. *)
Definition is_distance (c : C) (d : Z) : Prop :=
  (d = -1 /\ forall n, ~ walk n c) \/
  (0 <= d /\ walk (Z.to_nat d) c /\ forall n, walk n c -> d <= Z.of_nat n).
End spec.

(** 8- and 26-neighbourhoods. *)
Definition adj8 (a b : Z * Z) : Prop := Z.max (Z.abs (b.1 - a.1)) (Z.abs (b.2 - a.2)) = 1.
Definition adj26 (a b : Z * Z * Z) : Prop :=
  Z.max (Z.abs (b.1.1 - a.1.1)) (Z.max (Z.abs (b.1.2 - a.1.2)) (Z.abs (b.2 - a.2))) = 1.
Definition inside2 (sx sy : nat) (c : Z * Z) : Prop := 0 <= c.1 < Z.of_nat sx /\ 0 <= c.2 < Z.of_nat sy.
Definition inside3 (sx sy sz : nat) (c : Z * Z * Z) : Prop :=
  0 <= c.1.1 < Z.of_nat sx /\ 0 <= c.1.2 < Z.of_nat sy /\ 0 <= c.2 < Z.of_nat sz.
