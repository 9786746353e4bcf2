(** Model of the line iteration of /repo/src/utils/utils.cpp:302-373.  [int] is Z (the products of
    the code do not overflow for coordinates below 2^14). *)
From Verif Require Import Base.
Local Open Scope Z_scope.

(** utils.h:61-72 bresenham_param_t. *)
Record bres := mkBres {
  bX1 : Z; bY1 : Z; bX2 : Z; bY2 : Z; bInc : Z; bUsingY : bool;
  bDX : Z; bDY : Z; bDTerm : Z; bIncrE : Z; bIncrNE : Z; bX : Z; bY : Z; bFlip : bool
}.

(** utils.cpp:302-343 get_bresenham_parameters.  The floating-point test
    [fabs((double)dy / (double)dx) > 1] is |dy| > |dx| : ints are exact doubles, the quotient of two
    ints with |dy| > |dx| rounds to a number > 1, dy/0 is infinite and 0/0 is NaN (test false). *)
Definition get_bresenham_parameters (p1x p1y p2x p2y : Z) : bres :=
  let usingY := Z.abs (p2y - p1y) >? Z.abs (p2x - p1x) in
  let '(x1, y1, x2, y2) := if usingY then (p1y, p1x, p2y, p2x) else (p1x, p1y, p2x, p2y) in
  let flip := (p2x - p1x) * (p2y - p1y) <? 0 in
  let y1 := if flip then - y1 else y1 in
  let y2 := if flip then - y2 else y2 in
  let inc := if x2 >? x1 then 1 else -1 in
  let dx := x2 - x1 in
  let dy := y2 - y1 in
  mkBres x1 y1 x2 y2 inc usingY dx dy ((2 * dy - dx) * inc) (2 * dy * inc) (2 * (dy - dx) * inc) x1 y1 flip.

(** utils.cpp:345-357 get_current_point. *)
Definition get_current_point (b : bres) : Z * Z :=
  let y := if bFlip b then - bY b else bY b in
  if bUsingY b then (y, bX b) else (bX b, y).

(** utils.cpp:359-371 get_next_point; [None] is [return 0]. *)
Definition get_next_point (b : bres) : option bres :=
  if bX b =? bX2 b then None
  else
    let x := bX b + bInc b in
    if (bDTerm b <? 0) || ((bInc b <? 0) && (bDTerm b <=? 0))
    then Some (mkBres (bX1 b) (bY1 b) (bX2 b) (bY2 b) (bInc b) (bUsingY b) (bDX b) (bDY b)
                      (bDTerm b + bIncrE b) (bIncrE b) (bIncrNE b) x (bY b) (bFlip b))
    else Some (mkBres (bX1 b) (bY1 b) (bX2 b) (bY2 b) (bInc b) (bUsingY b) (bDX b) (bDY b)
                      (bDTerm b + bIncrNE b) (bIncrE b) (bIncrNE b) x (bY b + bInc b) (bFlip b)).

(** The callers' loop, e.g. utils.cpp / environment code:
    [do { get_current_point(&params,&nX,&nY); ... } while (get_next_point(&params));]
    e.g. environment_robarm.cpp:845-862 IsValidLineSegment.  [None] = fuel exhausted. *)
Fixpoint line_loop (fuel : nat) (b : bres) : option (list (Z * Z)) :=
  match fuel with
  | O => None
  | S f =>
    let p := get_current_point b in
    match get_next_point b with
    | None => Some [p]
    | Some b' => match line_loop f b' with Some l => Some (p :: l) | None => None end
    end
  end.
Definition bresenham_line (p1x p1y p2x p2y : Z) : option (list (Z * Z)) :=
  line_loop (S (Z.to_nat (Z.max (Z.abs (p2x - p1x)) (Z.abs (p2y - p1y)))))
            (get_bresenham_parameters p1x p1y p2x p2y).
