(** What C18 and C19 mean: the weighted graph of the map and the least costs in it. *)
From Verif Require Import Base.
Local Open Scope Z_scope.

(** The blocks of n x n cells of the map are the cells of the search: [inblocks] are the ones that exist, [blockcost] is the greatest cost in one. *)
Definition inblocks (w h : Z) (c : Z * Z) : Prop := 0 <= c.1 < w /\ 0 <= c.2 < h.
Definition blockcost (grid : Z -> Z -> Z) (n : Z) (c : Z * Z) (m : Z) : Prop :=
  (exists dx dy, 0 <= dx < n /\ 0 <= dy < n /\ grid (c.1 * n + dx) (c.2 * n + dy) = m) /\
  forall dx dy, 0 <= dx < n -> 0 <= dy < n -> grid (c.1 * n + dx) (c.2 * n + dy) <= m.

(** The 16 moves: the length class (straight, diagonal, knight's move) and the cells whose centre line the move crosses. *)
Inductive move : Z * Z -> Z * Z -> (Z * Z * Z -> Z) -> list (Z * Z) -> Prop :=
| Straight x y x' y' : Z.abs (x' - x) + Z.abs (y' - y) = 1 -> move (x, y) (x', y') (fun d => d.1.1) [(x, y); (x', y')]
| Diagonal x y x' y' : Z.abs (x' - x) = 1 -> Z.abs (y' - y) = 1 -> move (x, y) (x', y') (fun d => d.1.2) [(x, y); (x', y')]
| LongX x y x' y' xm : Z.abs (xm - x) = 1 -> x' - xm = xm - x -> Z.abs (y' - y) = 1 ->
    move (x, y) (x', y') (fun d => d.2) [(x, y); (xm, y); (xm, y'); (x', y')]
| LongY x y x' y' ym : Z.abs (ym - y) = 1 -> y' - ym = ym - y -> Z.abs (x' - x) = 1 ->
    move (x, y) (x', y') (fun d => d.2) [(x, y); (x, ym); (x', ym); (x', y')].

Section graph.
Context (grid : Z -> Z -> Z) (w h n obsthresh : Z) (dist : Z * Z * Z).
(** The edge cost documented at 2Dgridsearch.h:109-119: (greatest cost of the crossed cells + 1) times the length in millimetres; no edge through cells at or
    above the obstacle threshold. *)
Definition edge (u v : Z * Z) (c : Z) : Prop :=
  inblocks w h u /\ inblocks w h v /\ exists len cells m, move u v len cells /\ m < obsthresh /\
    (exists t, t ∈ cells /\ blockcost grid n t m) /\ (forall t k, t ∈ cells -> blockcost grid n t k -> k <= m) /\ c = (m + 1) * len dist.
Inductive path (s : Z * Z) : Z * Z -> Z -> Prop :=
| path_nil : path s s 0
| path_snoc u v c e : path s u c -> edge u v e -> path s v (c + e).
(** [v] is the least cost of a path from [s] to [t], or [bound] if there is none below [bound]. *)
Definition least_below (bound : Z) (s t : Z * Z) (v : Z) : Prop :=
  v <= bound /\ (v < bound -> path s t v) /\ forall c, path s t c -> c < bound -> v <= c.
End graph.
