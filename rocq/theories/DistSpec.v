(** What C15 means. *)
From Verif Require Import Base.
Local Open Scope Z_scope.

(** The length of a shortest 8-connected path over the plane between cells [dx] columns and [dy] rows apart, when a straight step
    costs [one] and a diagonal step [diag]. *)
Definition chamfer (one diag : Z) (c t : Z * Z) : Z :=
  let dx := Z.abs (c.1 - t.1) in let dy := Z.abs (c.2 - t.2) in diag * Z.min dx dy + one * (Z.max dx dy - Z.min dx dy).
(** The number of steps of that path. *)
Definition steps (c t : Z * Z) : Z := Z.max (Z.abs (c.1 - t.1)) (Z.abs (c.2 - t.2)).
Definition inmap (width height : Z) (c : Z * Z) : Prop := 0 <= c.1 < width /\ 0 <= c.2 < height.
(** The cells that count as obstacles, and as not free: all cells outside the map do. *)
Definition isobs (grid : Z -> Z -> Z) (width height obsthresh : Z) (c : Z * Z) : Prop := inmap width height c -> obsthresh <= grid c.1 c.2.
Definition isnonfree (grid : Z -> Z -> Z) (width height obsthresh : Z) (c : Z * Z) : Prop := inmap width height c -> obsthresh <= grid c.1 c.2 \/ 0 < grid c.1 c.2.
