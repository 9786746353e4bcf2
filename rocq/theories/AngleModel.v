(** Model of the small numeric helpers of /repo/src/include/sbpl/utils/utils.h and
    /repo/src/utils/utils.cpp.  Simplification: [double] arithmetic is exact rational arithmetic;
    PI_CONST is any positive rational [P] (the C++ constant is a double, hence rational). *)
From Coq Require Export QArith Qabs Qround.
From Verif Require Import Base.
Local Open Scope Q_scope.

(** utils.h:47-49 NORMALIZEDISCTHETA; C++ [%] truncates, i.e. is Z.rem. *)
Definition NORMALIZEDISCTHETA (theta dirs : Z) : Z :=
  (if theta >=? 0 then Z.rem theta dirs else Z.rem (Z.rem theta dirs + dirs) dirs)%Z.

(** environment_navxythetalat.cpp:509-529 normalizeDiscAngle of class EnvironmentNAVXYTHETALATTICE is a
    loop form of the same thing; see NavXYTheta model. *)

(** C++ conversion [(int)x] of a double: truncation toward zero. *)
Definition Qtrunc (x : Q) : Z := Z.quot (Qnum x) (Zpos (Qden x)).

Definition Qltb (x y : Q) : bool := negb (Qle_bool y x).

(** utils.h:51 CONTXY2DISC. *)
Definition CONTXY2DISC (x cellsize : Q) : Z :=
  if Qle_bool 0 x then Qtrunc (x / cellsize) else (Qtrunc (x / cellsize) - 1)%Z.
(** utils.h:52 DISCXY2CONT. *)
Definition DISCXY2CONT (d : Z) (cellsize : Q) : Q := inject_Z d * cellsize + cellsize / 2.

Section angles.
Context (P : Q). (* PI_CONST, utils.h:54 *)

(** utils.cpp:376-380 DiscTheta2Cont. *)
Definition DiscTheta2Cont (nTheta : Z) (N : Z) : Q :=
  let thetaBinSize := 2 * P / inject_Z N in inject_Z nTheta * thetaBinSize.

(** utils.cpp:393-408 normalizeAngle (the final SBPL_ERROR only prints). *)
Definition normalizeAngle (angle : Q) : Q :=
  let r := if Qltb (2 * P) (Qabs angle)
           then angle - inject_Z (Qtrunc (angle / (2 * P))) * 2 * P else angle in
  if Qltb r 0 then r + 2 * P else r.

(** utils.cpp:384-388 ContTheta2Disc. *)
Definition ContTheta2Disc (fTheta : Q) (N : Z) : Z :=
  let thetaBinSize := 2 * P / inject_Z N in
  Qtrunc (normalizeAngle (fTheta + thetaBinSize / 2) / (2 * P) * inject_Z N).

(** utils.cpp:450-464 computeMinUnsignedAngleDiff. *)
Definition computeMinUnsignedAngleDiff (angle1 angle2 : Q) : Q :=
  let a1 := normalizeAngle angle1 in
  let a2 := normalizeAngle angle2 in
  let d := Qabs (a1 - a2) in
  if Qltb P d then Qabs (d - 2 * P) else d.
End angles.

(** utils.h __min/__max macros: [__max(x,y) (x>y?x:y)], [__min(x,y) (x>y?y:x)]. *)
Definition qmax (x y : Q) : Q := if Qltb y x then x else y.
Definition qmin (x y : Q) : Q := if Qltb y x then y else x.

(** utils.cpp:415-448 IsInsideFootprint: one round of the loop, [true] = counter++. *)
Definition crosses (pt p1 p2 : Q * Q) : bool :=
  Qltb (qmin (p1.2) (p2.2)) (pt.2) && Qle_bool (pt.2) (qmax (p1.2) (p2.2)) &&
  Qle_bool (pt.1) (qmax (p1.1) (p2.1)) && negb (Qeq_bool (p1.2) (p2.2)) &&
  (Qeq_bool (p1.1) (p2.1) ||
   Qle_bool (pt.1) ((pt.2 - p1.2) * (p2.1 - p1.1) / (p2.2 - p1.2) + p1.1)).
(** The loop for i = 1..N, p1 walks along the vertices, p2 = vertex (i mod N). *)
Fixpoint footprint_loop (pt p1 : Q * Q) (vs : list (Q * Q)) (counter : nat) : nat :=
  match vs with
  | [] => counter
  | p2 :: vs => footprint_loop pt p2 vs (if crosses pt p1 p2 then S counter else counter)
  end.
(** [bounding_polygon->at(0)] throws std::out_of_range on an empty polygon: [None]. *)
Definition IsInsideFootprint (pt : Q * Q) (poly : list (Q * Q)) : option bool :=
  match poly with
  | [] => None
  | v0 :: vs => Some (negb (Nat.even (footprint_loop pt v0 (vs ++ [v0]) 0)))
  end.
