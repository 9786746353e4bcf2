(** C10, C11, C12. *)
From Verif Require Import Base FifoModel FifoProofs BfsModel BfsSpec BfsProofs.
Local Open Scope Z_scope.

(** Cells a walk may enter: inside the grid and below the obstacle threshold. *)
Definition free2 (sx sy : nat) (thresh : Z) (grid : gmap (Z * Z) Z) (c : Z * Z) : Prop :=
  inside2 sx sy c /\ exists g, grid !! c = Some g /\ g < thresh.
Definition obst2 (sx sy : nat) (thresh : Z) (grid : gmap (Z * Z) Z) (c : Z * Z) : Prop :=
  inside2 sx sy c /\ exists g, grid !! c = Some g /\ thresh <= g.
Definition free3 (sx sy sz : nat) (thresh : Z) (grid : gmap (Z * Z * Z) Z) (c : Z * Z * Z) : Prop :=
  inside3 sx sy sz c /\ exists g, grid !! c = Some g /\ g < thresh.
Definition obst3 (sx sy sz : nat) (thresh : Z) (grid : gmap (Z * Z * Z) Z) (c : Z * Z * Z) : Prop :=
  inside3 sx sy sz c /\ exists g, grid !! c = Some g /\ thresh <= g.
(** The caller's array has a value for every cell. *)
Definition covers2 (sx sy : nat) (grid : gmap (Z * Z) Z) : Prop := forall c, inside2 sx sy c -> is_Some (grid !! c).
Definition covers3 (sx sy sz : nat) (grid : gmap (Z * Z * Z) Z) : Prop := forall c, inside3 sx sy sz c -> is_Some (grid !! c).

(** The methods of the two classes. *)
Notation from_point2 sx sy th := (compute_distance_from_point (cells2 sx sy) (inb2 sx sy) (onb2 sx sy) nbrs2 th).
Notation from_points2 sx sy th := (compute_distance_from_points (cells2 sx sy) (inb2 sx sy) (onb2 sx sy) nbrs2 th).
Notation from_obs2 sx sy th := (compute_distance_from_obs (cells2 sx sy) (inb2 sx sy) (onb2 sx sy) nbrs2 th).
Notation reachable2 sx sy th fs := (bfs_reachable (cells2 sx sy) (inb2 sx sy) (onb2 sx sy) nbrs2 th fs).
Notation from_point3 sx sy sz th := (compute_distance_from_point (cells3 sx sy sz) (inb3 sx sy sz) (onb3 sx sy sz) nbrs3 th).
Notation from_points3 sx sy sz th := (compute_distance_from_points (cells3 sx sy sz) (inb3 sx sy sz) (onb3 sx sy sz) nbrs3 th).
Notation from_obs3 sx sy sz th := (compute_distance_from_obs (cells3 sx sy sz) (inb3 sx sy sz) (onb3 sx sy sz) nbrs3 th).
Notation reachable3 sx sy sz th fs := (bfs_reachable (cells3 sx sy sz) (inb3 sx sy sz) (onb3 sx sy sz) nbrs3 th fs).

Lemma cov2 sx sy grid : covers2 sx sy grid -> covers (inb2 sx sy) grid.
Proof. intros Hg c Hc. by apply Hg, inb2_spec. Qed.
Lemma cov3 sx sy sz grid : covers3 sx sy sz grid -> covers (inb3 sx sy sz) grid.
Proof. intros Hg c Hc. by apply Hg, inb3_spec. Qed.
Lemma al2 sx sy th grid c : allowed (inb2 sx sy) th grid c <-> free2 sx sy th grid c.
Proof. unfold allowed, free2. by rewrite inb2_spec. Qed.
Lemma al3 sx sy sz th grid c : allowed (inb3 sx sy sz) th grid c <-> free3 sx sy sz th grid c.
Proof. unfold allowed, free3. by rewrite inb3_spec. Qed.
Lemma ob2 sx sy th grid c : obstacle (inb2 sx sy) th grid c <-> obst2 sx sy th grid c.
Proof. unfold obstacle, obst2. by rewrite inb2_spec. Qed.
Lemma ob3 sx sy sz th grid c : obstacle (inb3 sx sy sz) th grid c <-> obst3 sx sy sz th grid c.
Proof. unfold obstacle, obst3. by rewrite inb3_spec. Qed.

(** C10: one source. For every grid, source, object history and queue size above sx*sy. *)
Theorem C10_from_point_exact : forall sx sy th fs grid b p, (sx * sy < fs)%nat -> covers2 sx sy grid ->
  reachable2 sx sy th fs b -> inside2 sx sy p ->
  exists b', from_point2 sx sy th grid p b = Ok (true, b') /\
    forall c, inside2 sx sy c -> exists d, bdist b' !! c = Some d /\
      is_distance (free2 sx sy th grid) adj8 (fun s => s = p) c d.
Proof.
  intros sx sy th fs grid b p Hfs Hg Hb Hp. apply cov2 in Hg. apply inb2_spec in Hp.
  assert (0 < fs)%nat as Hpos by lia.
  destruct (reachable_wf _ _ _ _ _ _ (cells2_spec sx sy) (cells2_NoDup sx sy) (int2 sx sy) Hpos b Hb) as [Hwf Hsz].
  destruct (from_point_spec _ _ _ _ th grid (cells2_spec sx sy) (cells2_NoDup sx sy) (int2 sx sy) Hg b p Hwf)
    as (r&b'&E&_&_&->&_&Hr). rewrite Hp in *. destruct (Hr eq_refl) as [_ Hex]. exists b'. split; [done|].
  intros c Hc. apply inb2_spec in Hc. destruct (Hex ltac:(rewrite cells2_length, Hsz; done) c Hc) as (d&Hd&Hdist).
  exists d. split; [done|]. eapply is_distance_iff; [| | |exact Hdist]; intros; [by rewrite al2|by rewrite <- nbrs2_spec|done].
Qed.
Print Assumptions C10_from_point_exact.

(** C10: a source outside the grid is rejected and nothing changes. *)
Theorem C10_out_of_bounds_rejected : forall sx sy th grid b p, ~ inside2 sx sy p ->
  from_point2 sx sy th grid p b = Ok (false, b).
Proof.
  intros sx sy th grid b p Hp. unfold compute_distance_from_point.
  destruct (inb2 sx sy p) eqn:E; [|done]. by apply inb2_spec in E.
Qed.
Print Assumptions C10_out_of_bounds_rejected.

(** C10: several sources (without repetition) and all obstacles as sources. *)
Theorem C10_from_points_exact : forall sx sy th fs grid b ps, (sx * sy < fs)%nat -> covers2 sx sy grid ->
  reachable2 sx sy th fs b -> NoDup ps ->
  exists r b', from_points2 sx sy th grid ps b = Ok (r, b') /\ (r = true <-> forall p, p ∈ ps -> inside2 sx sy p) /\
    (r = true -> forall c, inside2 sx sy c -> exists d, bdist b' !! c = Some d /\
      is_distance (free2 sx sy th grid) adj8 (fun s => s ∈ ps) c d).
Proof.
  intros sx sy th fs grid b ps Hfs Hg Hb Hnd. apply cov2 in Hg.
  destruct (reachable_wf _ _ _ _ _ _ (cells2_spec sx sy) (cells2_NoDup sx sy) (int2 sx sy) (Nat.le_lt_trans _ _ _ (Nat.le_0_l _) Hfs) b Hb) as [Hwf Hsz].
  destruct (from_points_spec _ _ _ _ th grid (cells2_spec sx sy) (cells2_NoDup sx sy) (int2 sx sy) Hg b ps Hwf)
    as (r&b'&E&_&_&Hr&Hres). exists r, b'. split_and!; [done| |].
  - rewrite Hr. by setoid_rewrite inb2_spec.
  - intros ->. destruct (Hres eq_refl) as [_ Hex]. intros c Hc. apply inb2_spec in Hc.
    destruct (Hex ltac:(rewrite cells2_length, Hsz; done) Hnd c Hc) as (d&Hd&Hdist).
    exists d. split; [done|]. eapply is_distance_iff; [| | |exact Hdist]; intros; [by rewrite al2|by rewrite <- nbrs2_spec|done].
Qed.
Print Assumptions C10_from_points_exact.
Theorem C10_from_obs_exact : forall sx sy th fs grid b, (sx * sy < fs)%nat -> covers2 sx sy grid ->
  reachable2 sx sy th fs b ->
  exists b', from_obs2 sx sy th grid b = Ok b' /\
    forall c, inside2 sx sy c -> exists d, bdist b' !! c = Some d /\
      is_distance (free2 sx sy th grid) adj8 (obst2 sx sy th grid) c d.
Proof.
  intros sx sy th fs grid b Hfs Hg Hb. apply cov2 in Hg.
  destruct (reachable_wf _ _ _ _ _ _ (cells2_spec sx sy) (cells2_NoDup sx sy) (int2 sx sy) (Nat.le_lt_trans _ _ _ (Nat.le_0_l _) Hfs) b Hb) as [Hwf Hsz].
  destruct (from_obs_spec _ _ _ _ th grid (cells2_spec sx sy) (cells2_NoDup sx sy) (int2 sx sy) Hg b Hwf)
    as (b'&E&_&_&_&Hex). exists b'. split; [done|].
  intros c Hc. apply inb2_spec in Hc. destruct (Hex ltac:(rewrite cells2_length, Hsz; done) c Hc) as (d&Hd&Hdist).
  exists d. split; [done|]. eapply is_distance_iff; [| | |exact Hdist]; intros; [by rewrite al2|by rewrite <- nbrs2_spec|by rewrite ob2].
Qed.
Print Assumptions C10_from_obs_exact.

(** C11: whatever the queue size (>= 1), so also with the default one, every call is memory safe,
    terminates, and each non-negative distance is the length of a real walk (never too small). *)
Theorem C11_any_queue_size_sound : forall sx sy th fs grid b p, (0 < fs)%nat -> covers2 sx sy grid ->
  reachable2 sx sy th fs b -> inside2 sx sy p ->
  (exists b', from_point2 sx sy th grid p b = Ok (true, b') /\
    forall c, inside2 sx sy c -> exists d, bdist b' !! c = Some d /\
      (d = -1 \/ (0 <= d /\ walk (free2 sx sy th grid) adj8 (fun s => s = p) (Z.to_nat d) c))) /\
  (exists b', from_obs2 sx sy th grid b = Ok b' /\
    forall c, inside2 sx sy c -> exists d, bdist b' !! c = Some d /\
      (d = -1 \/ (0 <= d /\ walk (free2 sx sy th grid) adj8 (obst2 sx sy th grid) (Z.to_nat d) c))).
Proof.
  intros sx sy th fs grid b p Hfs Hg Hb Hp. apply cov2 in Hg. apply inb2_spec in Hp.
  destruct (reachable_wf _ _ _ _ _ _ (cells2_spec sx sy) (cells2_NoDup sx sy) (int2 sx sy) (Nat.le_lt_trans _ _ _ (Nat.le_0_l _) Hfs) b Hb) as [Hwf Hsz].
  split.
  - destruct (from_point_spec _ _ _ _ th grid (cells2_spec sx sy) (cells2_NoDup sx sy) (int2 sx sy) Hg b p Hwf)
      as (r&b'&E&_&_&->&_&Hr). rewrite Hp in *. destruct (Hr eq_refl) as [Hsd _]. exists b'. split; [done|].
    intros c Hc. apply inb2_spec in Hc. destruct (Hsd c Hc) as (d&Hd&[->|[H0 Hw]]); eexists; (split; [exact Hd|]); [by left|right].
    split; [done|]. eapply walk_iff; [| | |exact Hw]; intros; [by rewrite al2|by rewrite <- nbrs2_spec|done].
  - destruct (from_obs_spec _ _ _ _ th grid (cells2_spec sx sy) (cells2_NoDup sx sy) (int2 sx sy) Hg b Hwf)
      as (b'&E&_&_&Hsd&_). exists b'. split; [done|].
    intros c Hc. apply inb2_spec in Hc. destruct (Hsd c Hc) as (d&Hd&[->|[H0 Hw]]); eexists; (split; [exact Hd|]); [by left|right].
    split; [done|]. eapply walk_iff; [| | |exact Hw]; intros; [by rewrite al2|by rewrite <- nbrs2_spec|by rewrite ob2].
Qed.
Print Assumptions C11_any_queue_size_sound.

(** C11 finding 1: with the default queue size, compute_distance_from_obs loses cells: a 12x12 grid,
    all obstacles but the centre of the last rows. *)
Definition demo_obs_grid : gmap (Z * Z) Z :=
  list_to_map ((fun c => (c, if (8 <=? c.1) && (2 <=? c.2) && (c.2 <=? 9) then 0 else 100)) <$> cells2 12 12).
Lemma list_to_map_covers (f : Z * Z -> Z) (l : list (Z * Z)) c : c ∈ l ->
  is_Some ((list_to_map ((fun c => (c, f c)) <$> l) : gmap (Z * Z) Z) !! c).
Proof.
  induction l as [|x l IH]; intros Hin; [set_solver|]. csimpl.
  destruct (decide (x = c)) as [->|]; [rewrite lookup_insert; eauto|rewrite lookup_insert_ne by done; apply IH; set_solver].
Qed.
Lemma new_reachable2 sx sy th fs : reachable2 sx sy th fs (new_bfs ∅ fs).
Proof. apply br_new. intros c [d Hd]. by rewrite lookup_empty in Hd. Qed.
Definition dist_at (r : outcome unit (bool * bfs (Z * Z))) (c : Z * Z) : option Z :=
  match r with Ok (_, b) => bdist b !! c | _ => None end.
Definition dist_at' (r : outcome unit (bfs (Z * Z))) (c : Z * Z) : option Z :=
  match r with Ok b => bdist b !! c | _ => None end.
Theorem C11_default_queue_loses_cells_from_obs_refuted :
  exists b' c, from_obs2 12 12 50 demo_obs_grid (new_bfs ∅ (default_fifo2 12 12)) = Ok b' /\
    inside2 12 12 c /\ bdist b' !! c = Some (-1) /\ exists n, walk (free2 12 12 50 demo_obs_grid) adj8 (obst2 12 12 50 demo_obs_grid) n c.
Proof.
  assert (covers2 12 12 demo_obs_grid) as Hcov.
  { intros c Hc. apply list_to_map_covers. by apply cells2_spec, inb2_spec. }
  destruct (C11_any_queue_size_sound 12 12 50 (default_fifo2 12 12) demo_obs_grid (new_bfs ∅ (default_fifo2 12 12)) (0, 0)
     ltac:(vm_compute; lia) Hcov (new_reachable2 _ _ _ _) ltac:(unfold inside2; simpl; lia)) as (_&b'&E&_).
  exists b', (8, 9). split; [exact E|]. split; [unfold inside2; simpl; lia|]. split.
  { assert (bdist b' !! (8, 9) = dist_at' (from_obs2 12 12 50 demo_obs_grid (new_bfs ∅ (default_fifo2 12 12))) (8, 9)) as ->
      by (rewrite E; exact eq_refl).
    vm_compute. reflexivity. }
  exists 1%nat.
  apply (walk_step _ _ _ 0 (8, 10)); [apply walk_src|unfold adj8; simpl; lia|].
  - split; [unfold inside2; simpl; lia|]. exists 100. split; [vm_compute; reflexivity|lia].
  - split; [unfold inside2; simpl; lia|]. exists 0. split; [vm_compute; reflexivity|lia].
Qed.
Print Assumptions C11_default_queue_loses_cells_from_obs_refuted.

(** C11 finding 2: even a single source overflows the default queue: an H-tree maze on 61x61 cells,
    the source in the middle; 94 reachable cells are reported unreachable. *)
Fixpoint htree (fuel : nat) (cx cy L : Z) (horiz : bool) : list (Z * Z) :=
  match fuel with
  | O => []
  | S fuel =>
    ((fun i => let o := i - L in if horiz then (cx + o, cy) else (cx, cy + o)) <$> zrange (Z.to_nat (2 * L + 1))) ++
    let nl := if horiz then L else L / 2 in
    if nl >=? 2 then
      if horiz then htree fuel (cx - L) cy nl false ++ htree fuel (cx + L) cy nl false
      else htree fuel cx (cy - L) nl true ++ htree fuel cx (cy + L) nl true
    else []
  end.
Definition maze_grid : gmap (Z * Z) Z :=
  list_to_map ((fun c => (c, 0)) <$> htree 20 30 30 16 true) ∪ list_to_map ((fun c => (c, 100)) <$> cells2 61 61).
Theorem C11_default_queue_loses_cells_from_point_refuted :
  exists b' c, from_point2 61 61 50 maze_grid (30, 30) (new_bfs ∅ (default_fifo2 61 61)) = Ok (true, b') /\
    inside2 61 61 c /\ bdist b' !! c = Some (-1) /\
    exists n, walk (free2 61 61 50 maze_grid) adj8 (fun s => s = (30, 30)) n c.
Proof.
  assert (covers2 61 61 maze_grid) as Hcov.
  { intros c Hc. unfold maze_grid. apply inb2_spec, cells2_spec in Hc.
    apply lookup_union_is_Some. right. by apply (list_to_map_covers (fun _ => 100)). }
  assert (forall fs, (0 < fs)%nat -> exists b', from_point2 61 61 50 maze_grid (30, 30) (new_bfs ∅ fs) = Ok (true, b') /\
    forall c, inside2 61 61 c -> exists d, bdist b' !! c = Some d /\
      (d = -1 \/ (0 <= d /\ walk (free2 61 61 50 maze_grid) adj8 (fun s => s = (30, 30)) (Z.to_nat d) c))) as Hrun.
  { intros fs Hfs. eapply (C11_any_queue_size_sound 61 61 50 fs maze_grid (new_bfs ∅ fs) (30, 30)); [done|done|apply new_reachable2|unfold inside2; simpl; lia]. }
  destruct (Hrun (default_fifo2 61 61) ltac:(vm_compute; lia)) as (b1&E1&_).
  destruct (Hrun (Z.to_nat 3722) ltac:(lia)) as (b2&E2&Hd2).
  exists b1, (8, 60). split; [exact E1|]. split; [unfold inside2; simpl; lia|]. split.
  - assert (bdist b1 !! (8, 60) = dist_at (from_point2 61 61 50 maze_grid (30, 30) (new_bfs ∅ (default_fifo2 61 61))) (8, 60)) as ->
      by (rewrite E1; exact eq_refl).
    vm_compute. reflexivity.
  - destruct (Hd2 (8, 60) ltac:(unfold inside2; simpl; lia)) as (d&Hd&Hw).
    assert (bdist b2 !! (8, 60) = dist_at (from_point2 61 61 50 maze_grid (30, 30) (new_bfs ∅ (Z.to_nat 3722))) (8, 60)) as E
      by (rewrite E2; exact eq_refl).
    destruct Hw as [->|[_ Hw]]; [|eauto]. exfalso. rewrite Hd in E. vm_compute in E. discriminate E.
Qed.
Print Assumptions C11_default_queue_loses_cells_from_point_refuted.

(** C12: the three-dimensional class. *)
Theorem C12_from_point_exact : forall sx sy sz th fs grid b p, (sx * sy * sz < fs)%nat -> covers3 sx sy sz grid ->
  reachable3 sx sy sz th fs b -> inside3 sx sy sz p ->
  exists b', from_point3 sx sy sz th grid p b = Ok (true, b') /\
    forall c, inside3 sx sy sz c -> exists d, bdist b' !! c = Some d /\
      is_distance (free3 sx sy sz th grid) adj26 (fun s => s = p) c d.
Proof.
  intros sx sy sz th fs grid b p Hfs Hg Hb Hp. apply cov3 in Hg. apply inb3_spec in Hp.
  destruct (reachable_wf _ _ _ _ _ _ (cells3_spec sx sy sz) (cells3_NoDup sx sy sz) (int3 sx sy sz) (Nat.le_lt_trans _ _ _ (Nat.le_0_l _) Hfs) b Hb) as [Hwf Hsz].
  destruct (from_point_spec _ _ _ _ th grid (cells3_spec sx sy sz) (cells3_NoDup sx sy sz) (int3 sx sy sz) Hg b p Hwf)
    as (r&b'&E&_&_&->&_&Hr). rewrite Hp in *. destruct (Hr eq_refl) as [_ Hex]. exists b'. split; [done|].
  intros c Hc. apply inb3_spec in Hc. destruct (Hex ltac:(rewrite cells3_length, Hsz; done) c Hc) as (d&Hd&Hdist).
  exists d. split; [done|]. eapply is_distance_iff; [| | |exact Hdist]; intros; [by rewrite al3|by rewrite <- nbrs3_spec|done].
Qed.
Print Assumptions C12_from_point_exact.
Theorem C12_from_points_exact : forall sx sy sz th fs grid b ps, (sx * sy * sz < fs)%nat -> covers3 sx sy sz grid ->
  reachable3 sx sy sz th fs b -> NoDup ps ->
  exists r b', from_points3 sx sy sz th grid ps b = Ok (r, b') /\ (r = true <-> forall p, p ∈ ps -> inside3 sx sy sz p) /\
    (r = true -> forall c, inside3 sx sy sz c -> exists d, bdist b' !! c = Some d /\
      is_distance (free3 sx sy sz th grid) adj26 (fun s => s ∈ ps) c d).
Proof.
  intros sx sy sz th fs grid b ps Hfs Hg Hb Hnd. apply cov3 in Hg.
  destruct (reachable_wf _ _ _ _ _ _ (cells3_spec sx sy sz) (cells3_NoDup sx sy sz) (int3 sx sy sz) (Nat.le_lt_trans _ _ _ (Nat.le_0_l _) Hfs) b Hb) as [Hwf Hsz].
  destruct (from_points_spec _ _ _ _ th grid (cells3_spec sx sy sz) (cells3_NoDup sx sy sz) (int3 sx sy sz) Hg b ps Hwf)
    as (r&b'&E&_&_&Hr&Hres). exists r, b'. split_and!; [done| |].
  - rewrite Hr. by setoid_rewrite inb3_spec.
  - intros ->. destruct (Hres eq_refl) as [_ Hex]. intros c Hc. apply inb3_spec in Hc.
    destruct (Hex ltac:(rewrite cells3_length, Hsz; done) Hnd c Hc) as (d&Hd&Hdist).
    exists d. split; [done|]. eapply is_distance_iff; [| | |exact Hdist]; intros; [by rewrite al3|by rewrite <- nbrs3_spec|done].
Qed.
Print Assumptions C12_from_points_exact.
Theorem C12_from_obs_exact : forall sx sy sz th fs grid b, (sx * sy * sz < fs)%nat -> covers3 sx sy sz grid ->
  reachable3 sx sy sz th fs b ->
  exists b', from_obs3 sx sy sz th grid b = Ok b' /\
    forall c, inside3 sx sy sz c -> exists d, bdist b' !! c = Some d /\
      is_distance (free3 sx sy sz th grid) adj26 (obst3 sx sy sz th grid) c d.
Proof.
  intros sx sy sz th fs grid b Hfs Hg Hb. apply cov3 in Hg.
  destruct (reachable_wf _ _ _ _ _ _ (cells3_spec sx sy sz) (cells3_NoDup sx sy sz) (int3 sx sy sz) (Nat.le_lt_trans _ _ _ (Nat.le_0_l _) Hfs) b Hb) as [Hwf Hsz].
  destruct (from_obs_spec _ _ _ _ th grid (cells3_spec sx sy sz) (cells3_NoDup sx sy sz) (int3 sx sy sz) Hg b Hwf)
    as (b'&E&_&_&_&Hex). exists b'. split; [done|].
  intros c Hc. apply inb3_spec in Hc. destruct (Hex ltac:(rewrite cells3_length, Hsz; done) c Hc) as (d&Hd&Hdist).
  exists d. split; [done|]. eapply is_distance_iff; [| | |exact Hdist]; intros; [by rewrite al3|by rewrite <- nbrs3_spec|by rewrite ob3].
Qed.
Print Assumptions C12_from_obs_exact.

(** Non-vacuity: a 3x3 grid with a wall; the far corner is 4 steps away, an enclosed cell has -1. *)
Definition demo_grid : gmap (Z * Z) Z := list_to_map (zip (cells2 4 3)
  [0;0;0; 9;9;0; 0;0;0; 0;9;9]).
Example bfs_demo : covers2 4 3 demo_grid /\
  exists b', from_point2 4 3 5 demo_grid (0,0) (new_bfs ∅ 13) = Ok (true, b') /\
    bdist b' !! (3, 0) = Some 4 /\ bdist b' !! (1, 0) = Some (-1) /\ bdist b' !! (2, 1) = Some 3.
Proof.
  split.
  - intros c Hc. apply inb2_spec, cells2_spec in Hc. unfold cells2 in Hc. vm_compute in Hc.
    repeat (apply elem_of_cons in Hc as [->|Hc]; [vm_compute; eauto|]). set_solver.
  - eexists. split; [vm_compute; reflexivity|]. vm_compute. done.
Qed.
Definition demo_grid3 : gmap (Z * Z * Z) Z := list_to_map (zip (cells3 2 2 2) [0;0;0;0;0;0;0;0]).
Example bfs3_demo : exists b', from_point3 2 2 2 5 demo_grid3 (0,0,0) (new_bfs ∅ 9) = Ok (true, b') /\ bdist b' !! (1,1,1) = Some 1.
Proof. eexists. split; [vm_compute; reflexivity|]. vm_compute. done. Qed.
