(** Model of classes sbpl_bfs_2d and sbpl_bfs_3d,
    /repo/src/include/sbpl/utils/sbpl_bfs_2d.h and sbpl_bfs_3d.h.
    The two classes are the same program text over 2- resp. 3-tuples of coordinates; the section
    below is that text, parametric in the cell type, the bounds tests and the action table; the
    instances follow.  [dist_] is a finite map with exactly the allocated cells as domain, so an
    access outside the allocation is a missing key = UB; the same for [grid] (the caller's array is
    assumed to have the size given to the constructor). *)
From Verif Require Import Base FifoModel.
Local Open Scope Z_scope.

Section bfs.
Context {C : Type} `{Countable C}.
Context (cells : list C)       (* allocated cells, in the loop order of clear_distances *)
        (inb : C -> bool)      (* negation of the "out of bounds" tests *)
        (onb : C -> bool)      (* the "we are on a boundary" test *)
        (nbrs : C -> list C)   (* c + (dx,dy)[i], i = 0..NUM_ACTIONS-1 *)
        (thresh : Z).

Record bfs := mkBfs { bdist : gmap C Z; bq : fifo C }.
Notation bres A := (outcome unit A).

(** sbpl_bfs_2d.h:163-168 / sbpl_bfs_3d.h:179-185 clear_distances. *)
Definition clear_distances (d : gmap C Z) : gmap C Z := foldl (fun d c => <[c := -1]> d) d cells.

(** One round of the successor loop: sbpl_bfs_2d.h:178-187 (check = true), 191-199 (check = false); sbpl_bfs_3d.h:195-205, 209-218. *)
Definition bfs_relax (grid : gmap C Z) (check : bool) (cost : Z) (b : bfs) (x : C) : bres bfs :=
  if check && negb (inb x) then Ok b
  else
    match bdist b !! x with
    | None => UB
    | Some d =>
      if d <? 0 then
        match grid !! x with
        | None => UB
        | Some g =>
          if g <? thresh then
            do r <- fifo_insert (bq b) x;               (* result of insert ignored *)
            Ok (mkBfs (<[x := cost]> (bdist b)) (r.2))
          else Ok b
        end
      else Ok b
    end.
Fixpoint bfs_relax_all (grid : gmap C Z) (check : bool) (cost : Z) (xs : list C) (b : bfs) : bres bfs :=
  match xs with
  | [] => Ok b
  | x :: xs => do b' <- bfs_relax grid check cost b x; bfs_relax_all grid check cost xs b'
  end.

(** sbpl_bfs_2d.h:170-202 compute_distances (sbpl_bfs_3d.h:187-221). *)
Fixpoint compute_distances (fuel : nat) (grid : gmap C Z) (b : bfs) : bres bfs :=
  match fuel with
  | O => OOF
  | S fuel =>
    if fifo_empty (bq b) then Ok b
    else
      do r <- fifo_remove (bq b);
      match r.1 with
      | None => UB
      | Some c =>
        match bdist b !! c with
        | None => UB
        | Some dc =>
          do b' <- bfs_relax_all grid (onb c) (dc + 1) (nbrs c) (mkBfs (bdist b) (r.2));
          compute_distances fuel grid b'
        end
      end
  end.

(** [q_->insert(c); dist_[x][y] = 0;], sbpl_bfs_2d.h:114-116, 136-138, 154-156. *)
Definition add_source (b : bfs) (c : C) : bres bfs :=
  match bdist b !! c with
  | None => UB
  | Some _ => do r <- fifo_insert (bq b) c; Ok (mkBfs (<[c := 0]> (bdist b)) (r.2))
  end.

Definition bfs_fuel (b : bfs) : nat := length cells + fsize (bq b) + 1.
(** Both entry points start with q_->clear(); clear_distances(). *)
Definition bfs_reset (b : bfs) : bfs := mkBfs (clear_distances (bdist b)) (fifo_clear (bq b)).

(** sbpl_bfs_2d.h:105-120 (3d: 119-134) compute_distance_from_point. *)
Definition compute_distance_from_point (grid : gmap C Z) (c : C) (b : bfs) : bres (bool * bfs) :=
  if negb (inb c) then Ok (false, b)
  else
    do b1 <- add_source (bfs_reset b) c;
    do b2 <- compute_distances (bfs_fuel b1) grid b1;
    Ok (true, b2).

(** sbpl_bfs_2d.h:122-143 (3d: 136-157) compute_distance_from_points; the vectors x, y (of equal size; otherwise the
    call returns false at once) are one list.  The early [return false] leaves the queue filled. *)
Fixpoint add_sources (cs : list C) (b : bfs) : bres (bool * bfs) :=
  match cs with
  | [] => Ok (true, b)
  | c :: cs => if negb (inb c) then Ok (false, b) else do b' <- add_source b c; add_sources cs b'
  end.
Definition compute_distance_from_points (grid : gmap C Z) (cs : list C) (b : bfs) : bres (bool * bfs) :=
  do r <- add_sources cs (bfs_reset b);
  if r.1 then
    do b2 <- compute_distances (bfs_fuel (r.2)) grid (r.2);
    Ok (true, b2)
  else Ok (false, r.2).

(** sbpl_bfs_2d.h:145-161 (3d: 159-177) compute_distance_from_obs. *)
Fixpoint add_obs (grid : gmap C Z) (cs : list C) (b : bfs) : bres bfs :=
  match cs with
  | [] => Ok b
  | c :: cs =>
    match grid !! c with
    | None => UB
    | Some g => if g >=? thresh then do b' <- add_source b c; add_obs grid cs b' else add_obs grid cs b
    end
  end.
Definition compute_distance_from_obs (grid : gmap C Z) (b : bfs) : bres bfs :=
  do b1 <- add_obs grid cells (bfs_reset b);
  compute_distances (bfs_fuel b1) grid b1.

(** The object after construction: dist_ allocated but not initialised. Uninitialised cells hold
    arbitrary values [d0]. *)
Definition new_bfs (d0 : gmap C Z) (fifo_size : nat) : bfs := mkBfs d0 (new_fifo fifo_size).
End bfs.
Arguments bfs C {_ _}.
Arguments mkBfs {C _ _}.
Arguments bdist {C _ _}.
Arguments bq {C _ _}.

(** * The 2D instance *)
Definition zrange (n : nat) : list Z := Z.of_nat <$> seq 0 n.
Section bfs2.
Context (sx sy : nat).
Definition cells2 : list (Z * Z) := x ← zrange sx; (fun y => (x, y)) <$> zrange sy.
(** sbpl_bfs_2d.h:106, 132, 181 *)
Definition inb2 (c : Z * Z) : bool :=
  negb ((c.1 <? 0) || (c.1 >=? Z.of_nat sx) || (c.2 <? 0) || (c.2 >=? Z.of_nat sy)).
(** sbpl_bfs_2d.h:176 *)
Definition onb2 (c : Z * Z) : bool :=
  (c.1 =? 0) || (c.1 =? Z.of_nat sx - 1) || (c.2 =? 0) || (c.2 =? Z.of_nat sy - 1).
(** sbpl_bfs_2d.h:75-86: x from -1 to 1, y from -1 to 1, skipping (0,0). *)
Definition dirs2 : list (Z * Z) := [(-1,-1);(-1,0);(-1,1);(0,-1);(0,1);(1,-1);(1,0);(1,1)].
Definition nbrs2 (c : Z * Z) : list (Z * Z) := (fun d => (c.1 + d.1, c.2 + d.2)) <$> dirs2.
(** sbpl_bfs_2d.h:67-68: the default queue size. *)
Definition default_fifo2 : nat := 2 * sx + 2 * sy.
End bfs2.

(** * The 3D instance *)
Section bfs3.
Context (sx sy sz : nat).
Definition cells3 : list (Z * Z * Z) := x ← zrange sx; y ← zrange sy; (fun z => (x, y, z)) <$> zrange sz.
(** sbpl_bfs_3d.h:120, 146, 199 *)
Definition inb3 (c : Z * Z * Z) : bool :=
  negb ((c.1.1 <? 0) || (c.1.1 >=? Z.of_nat sx) || (c.1.2 <? 0) || (c.1.2 >=? Z.of_nat sy) ||
        (c.2 <? 0) || (c.2 >=? Z.of_nat sz)).
(** sbpl_bfs_3d.h:193 *)
Definition onb3 (c : Z * Z * Z) : bool :=
  (c.1.1 =? 0) || (c.1.1 =? Z.of_nat sx - 1) || (c.1.2 =? 0) || (c.1.2 =? Z.of_nat sy - 1) ||
  (c.2 =? 0) || (c.2 =? Z.of_nat sz - 1).
(** sbpl_bfs_3d.h:81-97 *)
Definition dirs3 : list (Z * Z * Z) :=
  [(-1,-1,-1);(-1,-1,0);(-1,-1,1);(-1,0,-1);(-1,0,0);(-1,0,1);(-1,1,-1);(-1,1,0);(-1,1,1);
   (0,-1,-1);(0,-1,0);(0,-1,1);(0,0,-1);(0,0,1);(0,1,-1);(0,1,0);(0,1,1);
   (1,-1,-1);(1,-1,0);(1,-1,1);(1,0,-1);(1,0,0);(1,0,1);(1,1,-1);(1,1,0);(1,1,1)].
Definition nbrs3 (c : Z * Z * Z) : list (Z * Z * Z) :=
  (fun d => (c.1.1 + d.1.1, c.1.2 + d.1.2, c.2 + d.2)) <$> dirs3.
(** sbpl_bfs_3d.h:70-71 *)
Definition default_fifo3 : nat := 2 * sx * sy + 2 * sx * sz + 2 * sy * sz.
End bfs3.
