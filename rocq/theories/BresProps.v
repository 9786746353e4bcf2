(** C13. *)
From Verif Require Import Base BresModel BresProofs.
Local Open Scope Z_scope.

(** For every pair of cells: the do/while loop of the callers terminates, and the visited cells
    are max(|dx|,|dy|)+1 many, start at p1, end at p2, each step goes to an 8-neighbour, and the
    i-th cell is within half a cell (in each coordinate) of the ideal point p1 + (i/n)(p2-p1). *)
Theorem C13_line_connects_and_stays_close : forall p1x p1y p2x p2y,
  let n := Z.max (Z.abs (p2x - p1x)) (Z.abs (p2y - p1y)) in
  exists l, bresenham_line p1x p1y p2x p2y = Some l /\
    Z.of_nat (length l) = n + 1 /\
    head l = Some (p1x, p1y) /\ last l = Some (p2x, p2y) /\
    (forall i a b, l !! i = Some a -> l !! S i = Some b ->
       Z.max (Z.abs (b.1 - a.1)) (Z.abs (b.2 - a.2)) = 1) /\
    (forall i a, l !! i = Some a ->
       2 * Z.abs (n * (a.1 - p1x) - Z.of_nat i * (p2x - p1x)) <= n /\
       2 * Z.abs (n * (a.2 - p1y) - Z.of_nat i * (p2y - p1y)) <= n).
Proof. exact line_spec. Qed.
Print Assumptions C13_line_connects_and_stays_close.

(** The visited cells do not depend on the direction of travel (the tie-breaking of the code is
    symmetric), so collision checks of a segment and of its reverse agree. *)
Theorem C13_line_symmetric : forall p1x p1y p2x p2y l,
  bresenham_line p1x p1y p2x p2y = Some l -> bresenham_line p2x p2y p1x p1y = Some (reverse l).
Proof. exact line_reverse. Qed.
Print Assumptions C13_line_symmetric.

Example line_demo : bresenham_line 3 2 (-2) 4 = Some [(3,2);(2,2);(1,3);(0,3);(-1,4);(-2,4)].
Proof. vm_compute. reflexivity. Qed.
