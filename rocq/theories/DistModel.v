(** Model of computeDistancestoNonfreeAreas, /repo/src/utils/utils.cpp:466-742.
    A float is its value in units of 2^-23: every float the function handles is 0 or at least 1.0, hence a multiple of 2^-23.
    The arrays disttoObs_incells and disttoNonfree_incells are one map from cells to pairs; a cell that was never written is absent
    (reading it is undefined).  Grid2D is a function on the cells of the map. *)
From Verif Require Import Base.
Local Open Scope Z_scope.

(** IEEE single precision addition of non-negative numbers, round to nearest, ties to even (24 bit significand; no overflow). *)
Definition rne (n : Z) : Z :=
  let e := Z.log2 n - 23 in
  if e <=? 0 then n
  else
    let s := 2 ^ e in let q := n / s in let r := n mod s in
    (if (s <? 2 * r) || ((2 * r =? s) && Z.odd q) then q + 1 else q) * s.
Definition fadd (x y : Z) : Z := rne (x + y).
(** (float)1.0 and (float)1.414. *)
Definition fone : Z := 8388608.
Definition fdiag : Z := 11861492.

Notation arr := (gmap (Z * Z) (Z * Z)).
Notation dres A := (outcome Empty_set A).
Section run.
(** The number type: addition and the two constants (the float instance is below). *)
Context (add : Z -> Z -> Z) (one diag maxDist : Z) (grid : Z -> Z -> Z) (width height obsthresh : Z).

(** utils.cpp:500-576, the four tables of neighbours with their distances. *)
Definition downlefttoright : list (Z * Z * Z) := [(-1, -1, diag); (-1, 0, one); (-1, 1, diag); (0, -1, one)].
Definition downrighttoleft : list (Z * Z * Z) := [(-1, -1, diag); (-1, 0, one); (-1, 1, diag); (0, 1, one)].
Definition uprighttoleft : list (Z * Z * Z) := [(1, -1, diag); (1, 0, one); (1, 1, diag); (0, 1, one)].
Definition uplefttoright : list (Z * Z * Z) := [(1, -1, diag); (1, 0, one); (1, 1, diag); (0, -1, one)].

Definition outside (x y : Z) : bool := (x <? 0) || (x >=? width) || (y <? 0) || (y >=? height).
(** utils.cpp:601-621 (and the three copies 646-666, 684-703, 716-735): the loop over the neighbours. *)
Fixpoint overdirs (A : arr) (x y : Z) (dirs : list (Z * Z * Z)) (m : Z * Z) : dres (Z * Z) :=
  match dirs with
  | [] => Ok m
  | (dx, dy, c) :: dirs =>
    let nbrx := x + dx in let nbry := y + dy in
    do d <- (if outside nbrx nbry then Ok (c, c)
             else match A !! (nbrx, nbry) with None => UB | Some v => Ok (add c v.1, add c v.2) end);
    overdirs A x y dirs (if d.1 <? m.1 then d.1 else m.1, if d.2 <? m.2 then d.2 else m.2)
  end.
(** utils.cpp:588-625 and 633-670: one cell of the first pass. *)
Definition down_cell (A : arr) (c : Z * Z) : dres arr :=
  if grid c.1 c.2 >=? obsthresh then Ok (<[c := (0, 0)]> A)
  else
    do m <- overdirs A c.1 c.2 (if Z.even c.1 then downlefttoright else downrighttoleft) (maxDist, if grid c.1 c.2 >? 0 then 0 else maxDist);
    Ok (<[c := m]> A).
(** utils.cpp:680-707 and 712-739: one cell of the second pass. *)
Definition up_cell (A : arr) (c : Z * Z) : dres arr :=
  match A !! c with
  | None => UB
  | Some m => do m <- overdirs A c.1 c.2 (if Z.even c.1 then uprighttoleft else uplefttoright) m; Ok (<[c := m]> A)
  end.

Fixpoint foreach (f : arr -> Z * Z -> dres arr) (l : list (Z * Z)) (A : arr) : dres arr :=
  match l with [] => Ok A | c :: l => do A <- f A c; foreach f l A end.
(** for (y = 0; y < height_y; y++) and for (y = height_y - 1; y >= 0; y--). *)
Definition asc (n : Z) : list Z := seqZ 0 n.
Definition desc (n : Z) : list Z := rev (seqZ 0 n).
(** utils.cpp:582-673, 676-741: the order in which the cells are visited. *)
Definition down_order : list (Z * Z) := flat_map (fun x => map (fun y => (x, y)) (if Z.even x then asc height else desc height)) (asc width).
Definition up_order : list (Z * Z) := flat_map (fun x => map (fun y => (x, y)) (if Z.even x then desc height else asc height)) (desc width).
Definition distances (A : arr) : dres arr := do A <- foreach down_cell down_order A; foreach up_cell up_order A.
End run.
(** utils.cpp:476: maxDist = (float)(min(width_x, height_y)). *)
Definition distances_float (grid : Z -> Z -> Z) (width height obsthresh : Z) (A : arr) : dres arr :=
  distances fadd fone fdiag (rne (Z.min width height * fone)) grid width height obsthresh A.
