(** C14, C31-C34: the numeric helpers of utils.h / utils.cpp. *)
From Verif Require Import Base AngleModel AngleSpec AngleProofs FootprintProofs.
Local Open Scope Q_scope.

(** C14: the result is the residue of theta in [0,n), for every theta and positive n ... *)
Theorem C14_normalizedisctheta_is_residue : forall t n, (0 < n)%Z ->
  (0 <= NORMALIZEDISCTHETA t n < n)%Z /\ (exists k, NORMALIZEDISCTHETA t n = t + k * n)%Z.
Proof. exact normdisc_spec. Qed.
Print Assumptions C14_normalizedisctheta_is_residue.

(** ... hence it is a canonical representative: equal for two angles iff they differ by full turns,
    and applying it twice changes nothing. *)
Theorem C14_normalizedisctheta_canonical : forall s t n, (0 < n)%Z ->
  (NORMALIZEDISCTHETA s n = NORMALIZEDISCTHETA t n <-> exists k, s = (t + k * n)%Z) /\
  NORMALIZEDISCTHETA (NORMALIZEDISCTHETA t n) n = NORMALIZEDISCTHETA t n.
Proof.
  assert (forall s t n, (0 < n)%Z -> (exists k, s = (t + k * n)%Z) -> NORMALIZEDISCTHETA s n = NORMALIZEDISCTHETA t n) as A.
  { intros s t n Hn [k Hk]. destruct (normdisc_spec s n Hn) as [R1 [k1 E1]]. destruct (normdisc_spec t n Hn) as [R2 [k2 E2]].
    assert (k + k1 - k2 = 0)%Z by nia. nia. }
  intros s t n Hn. split; [split; [|by apply A]|].
  - intros E. destruct (normdisc_spec s n Hn) as [_ [k1 E1]]. destruct (normdisc_spec t n Hn) as [_ [k2 E2]].
    exists (k2 - k1)%Z. lia.
  - apply A; [done|]. destruct (normdisc_spec t n Hn) as [_ [k E]]. by exists k.
Qed.
Print Assumptions C14_normalizedisctheta_canonical.
Example normdisc_demo : (NORMALIZEDISCTHETA (-17) 16, NORMALIZEDISCTHETA 35 16, NORMALIZEDISCTHETA (-16) 16) = (15, 3, 0)%Z.
Proof. reflexivity. Qed.

(** C31: normalizeAngle returns the same direction in [0, 2pi]; 2pi itself only for the input 2pi. *)
Theorem C31_normalizeAngle_range_and_direction : forall P a, 0 < P ->
  0 <= normalizeAngle P a <= 2 * P /\
  (exists k : Z, normalizeAngle P a == a + inject_Z k * (2 * P)) /\
  (normalizeAngle P a == 2 * P <-> a == 2 * P).
Proof. intros P a HP. exact (norm_spec P HP a). Qed.
Print Assumptions C31_normalizeAngle_range_and_direction.

(** C31: the unsigned difference is the least distance between the two directions, at most pi. *)
Theorem C31_min_angle_diff_is_least : forall P a1 a2, 0 < P ->
  let d := computeMinUnsignedAngleDiff P a1 a2 in
  0 <= d <= P /\ (exists k : Z, d == Qabs (a1 - a2 + inject_Z k * (2 * P))) /\
  (forall k : Z, d <= Qabs (a1 - a2 + inject_Z k * (2 * P))).
Proof. intros P a1 a2 HP. exact (mindiff_spec P HP a1 a2). Qed.
Print Assumptions C31_min_angle_diff_is_least.

(** C32: the discrete angle is the bin containing the angle; it is in [0,N) except for the single
    direction on the upper border of the last bin given as exactly 2pi - bin/2, where N is returned. *)
Theorem C32_contTheta2Disc_bin : forall P N f, 0 < P -> (0 < N)%Z ->
  let d := ContTheta2Disc P f N in
  let bin := 2 * P / inject_Z N in
  (0 <= d <= N)%Z /\ (d = N <-> f == 2 * P - bin / 2) /\
  (exists k : Z, inject_Z d * bin - bin / 2 <= f + inject_Z k * (2 * P) < inject_Z d * bin + bin / 2).
Proof. intros P N f HP HN. exact (disc_bin P HP N HN f). Qed.
Print Assumptions C32_contTheta2Disc_bin.
Theorem C32_theta_roundtrip : forall P N n, 0 < P -> (0 < N)%Z -> (0 <= n < N)%Z ->
  ContTheta2Disc P (DiscTheta2Cont P n N) N = n.
Proof. intros P N n HP HN. exact (disc_roundtrip P HP N HN n). Qed.
Print Assumptions C32_theta_roundtrip.
(** Finding: the range claim [0,N) is false. *)
Theorem C32_range_refuted : exists P N f, 0 < P /\ (0 < N)%Z /\ ContTheta2Disc P f N = N.
Proof. exists (3#1), 16%Z, (93#16). vm_compute. done. Qed.
Print Assumptions C32_range_refuted.

(** C33: cell centre -> cell is the identity, for every cell index (negative too). *)
Theorem C33_cell_roundtrip : forall c d, 0 < c -> CONTXY2DISC (DISCXY2CONT d c) c = d.
Proof. intros c d Hc. exact (disc_cont_roundtrip c Hc d). Qed.
Print Assumptions C33_cell_roundtrip.
(** C33: the cell returned contains the coordinate (half-open), except at negative cell borders,
    where the point is put on the closed upper border. *)
Theorem C33_cell_contains_point : forall c x, 0 < c ->
  inject_Z (CONTXY2DISC x c) * c <= x <= inject_Z (CONTXY2DISC x c + 1) * c /\
  (0 <= x \/ (forall k : Z, ~ x == inject_Z k * c) -> x < inject_Z (CONTXY2DISC x c + 1) * c).
Proof. intros c x Hc. exact (cont2disc_spec c Hc x). Qed.
Print Assumptions C33_cell_contains_point.
(** Finding: at a negative cell border the half-open reading fails: the coordinate -1 with unit cells
    is put in cell -2 = [-2,-1). *)
Theorem C33_negative_border_refuted : exists c x, 0 < c /\ ~ x < inject_Z (CONTXY2DISC x c + 1) * c.
Proof. exists 1, (-1). vm_compute. split; done. Qed.
Print Assumptions C33_negative_border_refuted.

(** C34: IsInsideFootprint is the even-odd rule.  Triangles are decided correctly, a polygon is the
    xor of a triangle cut off and the rest, and the answer depends neither on the start vertex nor on
    the orientation. *)
Theorem C34_triangle_inside : forall pt a b c, strictly_in_ccw a b c pt ->
  IsInsideFootprint pt [a; b; c] = Some true.
Proof. exact triangle_in. Qed.
Print Assumptions C34_triangle_inside.
Theorem C34_triangle_outside : forall pt a b c, 0 < orient a b c -> strictly_out_ccw a b c pt ->
  IsInsideFootprint pt [a; b; c] = Some false.
Proof. exact triangle_out. Qed.
Print Assumptions C34_triangle_outside.
Theorem C34_triangulation : forall pt a b c vs bt br,
  IsInsideFootprint pt [a; b; c] = Some bt -> IsInsideFootprint pt (a :: c :: vs) = Some br ->
  IsInsideFootprint pt (a :: b :: c :: vs) = Some (xorb bt br).
Proof. exact inside_fan. Qed.
Print Assumptions C34_triangulation.
Theorem C34_start_vertex_irrelevant : forall pt vs ws, vs <> [] -> ws <> [] ->
  IsInsideFootprint pt (vs ++ ws) = IsInsideFootprint pt (ws ++ vs).
Proof. exact inside_rotate. Qed.
Print Assumptions C34_start_vertex_irrelevant.
Theorem C34_orientation_irrelevant : forall pt vs,
  IsInsideFootprint pt (reverse vs) = IsInsideFootprint pt vs.
Proof. exact inside_reverse. Qed.
Print Assumptions C34_orientation_irrelevant.
(** A point outside the bounding box is never reported inside. *)
Theorem C34_outside_bounding_box : forall pt poly, poly <> [] ->
  ((forall v, v ∈ poly -> pt.1 < v.1) \/ (forall v, v ∈ poly -> v.1 < pt.1) \/
   (forall v, v ∈ poly -> pt.2 < v.2) \/ (forall v, v ∈ poly -> v.2 < pt.2)) ->
  IsInsideFootprint pt poly = Some false.
Proof. exact inside_bbox. Qed.
Print Assumptions C34_outside_bounding_box.
Example footprint_demo :
  strictly_in_ccw (0,0) (4,0) (0,4) (1,1) /\ 0 < orient (0,0) (4,0) (0,4) /\ strictly_out_ccw (0,0) (4,0) (0,4) (3,3) /\
  IsInsideFootprint (1,1) [(0,0);(4,0);(4,2);(2,2);(2,4);(0,4)] = Some true /\
  IsInsideFootprint (3,3) [(0,0);(4,0);(4,2);(2,2);(2,4);(0,4)] = Some false.
Proof. vm_compute. intuition discriminate || auto. Qed.
