(** Specification vocabulary of the robot-arm environment, independent of the code model. *)
From Verif Require Import Base BfsSpec BresModel RarmModel.
Local Open Scope Z_scope.

Definition in_map (w h : Z) (c : Z * Z) : Prop := 0 <= c.1 < w /\ 0 <= c.2 < h.
(** A cell of the map without an obstacle (1 marks an obstacle). *)
Definition free (w h : Z) (grid : gmap (Z * Z) Z) (c : Z * Z) : Prop :=
  in_map w h c /\ exists o, grid !! c = Some o /\ o <> 1.
(** The length of the shortest 8-connected walk over free cells from [src] to [c], 1000000000 if there is none. *)
Definition shortest (w h : Z) (grid : gmap (Z * Z) Z) (src c : Z * Z) (d : Z) : Prop :=
  (d = 1000000000 /\ forall n, ~ walk (free w h grid) adj8 (eq src) n c) \/
  (0 <= d < 1000000000 /\ walk (free w h grid) adj8 (eq src) (Z.to_nat d) c /\
   forall n, walk (free w h grid) adj8 (eq src) n c -> d <= Z.of_nat n).
(** A map is given for every cell. *)
Definition full_map (w h : Z) (grid : gmap (Z * Z) Z) : Prop := forall c, in_map w h c -> is_Some (grid !! c).

(** * Arms.  A link is collision free if both its ends are inside the environment and every cell of the
    grid line (property C13) between their cells is free. *)
Definition cell_at (a : arm) (c : list Z) (k : nat) : Z * Z := ContXY2Cell a (a_joint a c k).
Definition inside_env (p : point) : Prop :=
  p_xneg p = false /\ p_xbig p = false /\ p_yneg p = false /\ p_ybig p = false.
Definition link_ok (a : arm) (c : list Z) (k : nat) : Prop :=
  inside_env (a_joint a c k) /\ inside_env (a_joint a c (S k)) /\
  exists l, bresenham_line (cell_at a c k).1 (cell_at a c k).2 (cell_at a c (S k)).1 (cell_at a c (S k)).2 = Some l /\
    forall x, x ∈ l -> free (a_w a) (a_h a) (a_grid a) x.
Definition config_ok (a : arm) (c : list Z) : Prop := forall k, (k < 6)%nat -> link_ok a c k.
(** The cell of the end effector and of the goal. *)
Definition tip (a : arm) (c : list Z) : Z * Z := cell_at a c 6.
Definition goal_cell (a : arm) : Z * Z := (a_gx a, a_gy a).

(** A configuration has six joint values, each below the number of values of that joint. *)
Definition config (a : arm) (c : list Z) : Prop :=
  length c = 6%nat /\ forall i v n, c !! i = Some v -> a_vals a !! i = Some n -> 0 <= v < n.
(** One joint is turned by one step (the joint values are cyclic). *)
Definition turn (a : arm) (c : list Z) (i : nat) (d : Z) : list Z :=
  match c !! i, a_vals a !! i with Some v, Some n => <[i := (v + d) mod n]> c | _, _ => c end.
Definition neighbours (a : arm) (c : list Z) : list (list Z) :=
  (fun m : nat * Z => turn a c m.1 m.2) <$>
    [(0%nat,-1);(0%nat,1);(1%nat,-1);(1%nat,1);(2%nat,-1);(2%nat,1);(3%nat,-1);(3%nat,1);(4%nat,-1);(4%nat,1);(5%nat,-1);(5%nat,1)].

(** Sensible parameters: a square map of fewer than 10^9 cells, six joints with 1..65535 values, a start
    configuration, a goal cell with nonnegative coordinates (it is of unsigned type). *)
Record arm_wf (a : arm) : Prop := {
  aw_pos : 0 < a_w a; aw_square : a_h a = a_w a; aw_size : a_w a * a_w a < 1000000000;
  aw_map : full_map (a_w a) (a_h a) (a_grid a);
  aw_vals : length (a_vals a) = 6%nat; aw_valr : forall i n, a_vals a !! i = Some n -> 0 < n <= 65535;
  aw_start : config a (a_start a);
  aw_goal : 0 <= a_gx a /\ 0 <= a_gy a }.
(** A step of one joint moves the end effector by at most one cell. *)
Definition small_steps (a : arm) : Prop := forall c c', config a c -> config_ok a c -> config_ok a c' -> c' ∈ neighbours a c ->
  Z.abs ((tip a c').1 - (tip a c).1) <= 1 /\ Z.abs ((tip a c').2 - (tip a c).2) <= 1.

(** The objects that exist: a new object initialised with success, then any calls. *)
Inductive reach (a : arm) : robarm -> Prop :=
| reach_init s : ra_Init a new_robarm = Ok (true, s) -> reach a s
| reach_succs s id s' ids costs : reach a s -> ra_GetSuccs a s id = Ok (s', ids, costs) -> reach a s'
| reach_random s draws id s' : reach a s -> Forall (config a) draws ->
    ra_GetRandomState a s draws = Ok (id, s') -> reach a s'
| reach_rsuccs s id draws s' ids lows : reach a s -> Forall (config a) draws ->
    ra_GetRandomSuccs a s id draws = Ok (s', ids, lows) -> reach a s'.
(** State [id] stands for configuration [c]. *)
Definition stands_for (s : robarm) (id : Z) (c : list Z) : Prop :=
  0 <= id /\ exists e, r_tab s !! Z.to_nat id = Some e /\ e_id e = id /\ e_coord e = c.
Definition is_goal (s : robarm) (id : Z) : Prop := id = Z.of_nat (r_goal s).
(** The all-zero configuration is harmless: it collides, or it is the start, or it is at the goal. (The code
    keeps the goal in its tables under the all-zero configuration.) *)
Definition zero_config_harmless (a : arm) : Prop :=
  ~ config_ok a (replicate 6 0) \/ a_start a = replicate 6 0 \/ tip a (replicate 6 0) = goal_cell a.
