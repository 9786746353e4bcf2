(** C82 - C87: the robot-arm environment. *)
From Coq Require Import ZifyBool ZifyNat.
From Verif Require Import Base BfsSpec BresModel RarmModel RarmSpec RarmProofs RarmProofs2 RarmProofs3 RarmProofs4.
Local Open Scope Z_scope.

(** * C82 *)
(** On every square map the computed tables hold, for every pair of cells, the length of the shortest
    8-connected obstacle-free walk (1000000000 if there is none); the search never throws. *)
Theorem C82_robarm_distances : forall w grid, 0 < w -> w * w < 1000000000 -> full_map w w grid ->
  exists H, ComputeHeuristicValues w w grid = Ok H /\
  forall from to_, in_map w w from -> in_map w w to_ -> exists row d,
    H !! (to_.1 + to_.2 * w) = Some row /\ row !! (from.1 + from.2 * w) = Some d /\ shortest w w grid to_ from d.
Proof.
  intros w grid Hw Hs Hg. destruct (heur_ok w grid Hw Hs Hg) as (H&E&HH). exists H. split; [done|].
  intros from to_ Hf Ht. exact (HH to_ from Ht Hf).
Qed.
Print Assumptions C82_robarm_distances.

(** A map that is wider than high makes Create2DStateSpace write outside its rows. *)
Theorem C82_robarm_wide_map_refuted : forall w h grid, 0 <= h < w -> ComputeHeuristicValues w h grid = UB.
Proof. intros w h grid Hwh. unfold ComputeHeuristicValues. by rewrite create_wide. Qed.
Print Assumptions C82_robarm_wide_map_refuted.

(** A map that is higher than wide makes the search read uninitialised coordinates. *)
Theorem C82_robarm_high_map_refuted : ComputeHeuristicValues 1 2 (list_to_map [((0,0),0);((0,1),0)]) = UB.
Proof. vm_compute. reflexivity. Qed.
Print Assumptions C82_robarm_high_map_refuted.

Definition demo_grid (obs : list (Z * Z)) : gmap (Z * Z) Z :=
  list_to_map ((fun c => (c, if decide (c ∈ obs) then 1 else 0)) <$> (x ← [0;1;2]; (fun y => (x, y)) <$> [0;1;2])).
Lemma demo_full : full_map 3 3 (demo_grid []).
Proof.
  intros [x y] [Hx Hy]. cbn [fst snd] in Hx, Hy.
  assert (x = 0 \/ x = 1 \/ x = 2) as Hx' by lia. assert (y = 0 \/ y = 1 \/ y = 2) as Hy' by lia.
  destruct Hx' as [-> |[-> | ->]], Hy' as [-> |[-> | ->]]; eexists; vm_compute; reflexivity.
Qed.
(** A wall in the middle column with a gap at the bottom: from (0,0) to (2,0) it takes 4 moves. *)
Example C82_demo :
  match ComputeHeuristicValues 3 3 (demo_grid [(1,0);(1,1)]) with
  | Ok H => (H !! 2) ≫= (fun row => row !! 0) = Some 4
  | _ => False
  end.
Proof. vm_compute. reflexivity. Qed.

(** * C83 *)
(** The collision check terminates for every configuration, accepts exactly the configurations all of
    whose links lie inside the environment and on free cells, and an accepted one has its end effector on a
    free cell of the map. *)
Theorem C83_robarm_collision_check : forall a c, arm_wf a ->
  exists b, IsValidCoord a c = Ok b /\ (b = true <-> config_ok a c) /\
    (b = true -> free (a_w a) (a_h a) (a_grid a) (tip a c)).
Proof.
  intros a c Hwf. destruct (valid_spec a Hwf c) as (b&E&Hb). exists b. split; [done|]. split; [done|].
  intros Hbt. by apply tip_free, Hb.
Qed.
Print Assumptions C83_robarm_collision_check.

(** The cell of a point inside the map is the one its coordinates lie in; any other point is moved to the border. *)
Theorem C83_robarm_cell : forall a p, arm_wf a ->
  in_map (a_w a) (a_h a) (ContXY2Cell a p) /\
  (p_xneg p = false -> p_yneg p = false -> in_map (a_w a) (a_h a) (p_x p, p_y p) -> ContXY2Cell a p = (p_x p, p_y p)).
Proof.
  intros a p Hwf. split; [by apply cell_in|]. intros Hx Hy [Hix Hiy]. simpl in *. pose proof (w_small a Hwf). pose proof (aw_square _ Hwf).
  unfold ContXY2Cell, u16. rewrite Hx, Hy. rewrite (Z.mod_small (p_x p)), (Z.mod_small (p_y p)) by lia.
  destruct (Z.leb_spec (a_w a) (p_x p)); [lia|]. destruct (Z.leb_spec (a_h a) (p_y p)); [lia|]. done.
Qed.
Print Assumptions C83_robarm_cell.

(** * C84 *)
Lemma reach_tinv a s : arm_wf a -> small_steps a -> (exists ok : list Z -> bool, forall c, ok c = true <-> config_ok a c) ->
  reach a s -> tinv a s.
Proof.
  intros Hwf Hsm [ok Hok]. induction 1 as [s E|s id s' ids costs HR IH E|s draws id s' HR IH Hd E|s id draws s' ids lows HR IH Hd E].
  - destruct (init_ok a Hwf) as (b&s'&E'&_&_&HT). rewrite E' in E. injection E as -> <-. auto.
  - destruct (decide (0 <= id < Z.of_nat (length (r_tab s)))) as [Hid|Hid].
    + destruct (succs_ok a Hwf s id ok Hok Hsm IH Hid) as (s1&i1&c1&E1&T1&_). rewrite E1 in E. by injection E as <- <- <-.
    + exfalso. unfold ra_GetSuccs in E. destruct (t_goal _ _ IH) as (Eg&Ege&_). rewrite Eg, Ege in E. cbn [e_id] in E.
      apply lookup_lt_Some in Ege. destruct (Z.eqb_spec id 1); [lia|]. destruct (Z.ltb_spec id 0); [done|].
      rewrite lookup_ge_None_2 in E by lia. done.
  - by destruct (random_ok a Hwf draws s id s' IH Hd E).
  - destruct (decide (0 <= id < Z.of_nat (length (r_tab s)))) as [Hid|Hid].
    + destruct (rsuccs_ok a Hwf s id draws ok Hok IH Hid Hd) as (s1&i1&c1&E1&T1&_). rewrite E1 in E. by injection E as <- <- <-.
    + exfalso. unfold ra_GetRandomSuccs in E. destruct (t_goal _ _ IH) as (Eg&Ege&_). rewrite Eg, Ege in E. cbn [e_id] in E.
      apply lookup_lt_Some in Ege. destruct (Z.eqb_spec id 1); [lia|]. destruct (Z.ltb_spec id 0); [done|].
      rewrite lookup_ge_None_2 in E by lia. done.
Qed.
Lemma ok_exists a : arm_wf a -> exists ok : list Z -> bool, forall c, ok c = true <-> config_ok a c.
Proof.
  intros Hwf. exists (fun c => match IsValidCoord a c with Ok b => b | _ => false end).
  intros c. destruct (valid_spec a Hwf c) as (b&->&Hb). done.
Qed.

(** Initialisation of a new object succeeds exactly when the start configuration is free of collisions
    and the goal lies on the map; the start then has id 0 and the goal id 1. *)
Theorem C84_robarm_init : forall a, arm_wf a -> exists b s, ra_Init a new_robarm = Ok (b, s) /\
  (b = true <-> config_ok a (a_start a) /\ in_map (a_w a) (a_h a) (goal_cell a)) /\
  (b = true -> stands_for s 0 (a_start a) /\ is_goal s 1 /\ length (r_tab s) = 2%nat).
Proof.
  intros a Hwf. destruct (init_ok a Hwf) as (b&s&E&Hb&Hl&HT). exists b, s. split; [done|]. split.
  - rewrite Hb. unfold in_map, goal_cell. simpl. destruct (aw_goal _ Hwf). naive_solver.
  - intros Hbt. specialize (HT Hbt). destruct (t_start _ _ HT) as (_&e&He&Hc). destruct (t_id _ _ HT _ _ He) as [Hid _].
    split; [|split; [|done]].
    + split; [lia|]. exists e. done.
    + unfold is_goal. by rewrite (proj1 (t_goal _ _ HT)).
Qed.
Print Assumptions C84_robarm_init.

(** In every reachable object: the state ids are 0..n-1; two different ids other than the goal's stand
    for different configurations; each of them stands for a collision-free configuration and is stored with
    the cell of its end effector. *)
Theorem C84_robarm_states : forall a s, arm_wf a -> small_steps a -> reach a s ->
  is_goal s 1 /\
  (forall id, 0 <= id < Z.of_nat (length (r_tab s)) -> exists c, stands_for s id c /\ config a c) /\
  (forall id id' c, stands_for s id c -> stands_for s id' c -> ~ is_goal s id -> ~ is_goal s id' -> id = id') /\
  (forall id c, stands_for s id c -> ~ is_goal s id -> config_ok a c /\
     exists e, r_tab s !! Z.to_nat id = Some e /\ e_eff e = tip a c).
Proof.
  intros a s Hwf Hsm HR. pose proof (reach_tinv a s Hwf Hsm (ok_exists a Hwf) HR) as T. unfold is_goal.
  rewrite (proj1 (t_goal _ _ T)). split_and!; [done| | |].
  - intros id Hid. destruct (lookup_lt_is_Some_2 (r_tab s) (Z.to_nat id)) as [e He]; [lia|].
    destruct (t_id _ _ T _ _ He) as [Hi Hc]. exists (e_coord e). split; [|done]. split; [lia|]. exists e. split_and!; [done|lia|done].
  - intros id id' c (H0&e&He&Hi&Hc) (H0'&e'&He'&Hi'&Hc') Hg Hg'.
    destruct (Z.lt_trichotomy id id') as [Hlt|[->|Hlt]]; [|done|].
    + destruct (t_uniq _ _ T _ _ _ _ He He' ltac:(lia)) as [? ?]; [congruence|lia].
    + destruct (t_uniq _ _ T _ _ _ _ He' He ltac:(lia)) as [? ?]; [congruence|lia].
  - intros id c (H0&e&He&Hi&Hc) Hg. destruct (t_valid _ _ T _ _ He ltac:(lia)) as [Hok Heff]. subst c. split; [done|]. eauto.
Qed.
Print Assumptions C84_robarm_states.

(** Ids stay valid: no later call changes or removes an entry. *)
Theorem C84_robarm_ids_stable : forall a s s' k c, arm_wf a -> small_steps a -> reach a s ->
  (exists id ids costs, ra_GetSuccs a s id = Ok (s', ids, costs)) \/
  (exists draws id, Forall (config a) draws /\ ra_GetRandomState a s draws = Ok (id, s')) \/
  (exists id draws ids lows, Forall (config a) draws /\ ra_GetRandomSuccs a s id draws = Ok (s', ids, lows)) ->
  stands_for s k c -> stands_for s' k c.
Proof.
  intros a s s' k c Hwf Hsm HR Hcall (H0&e&He&Hi&Hc). destruct (ok_exists a Hwf) as [ok Hok].
  pose proof (reach_tinv a s Hwf Hsm (ex_intro _ ok Hok) HR) as T.
  assert (ext s s') as X.
  { destruct Hcall as [(id&ids&costs&E)|[(draws&id&Hd&E)|(id&draws&ids&lows&Hd&E)]].
    - destruct (decide (0 <= id < Z.of_nat (length (r_tab s)))) as [Hid|Hid].
      + destruct (succs_ok a Hwf s id ok Hok Hsm T Hid) as (s1&i1&c1&E1&_&X1&_). rewrite E1 in E. by injection E as <- <- <-.
      + exfalso. unfold ra_GetSuccs in E. destruct (t_goal _ _ T) as (Eg&Ege&_). rewrite Eg, Ege in E. cbn [e_id] in E.
        apply lookup_lt_Some in Ege. destruct (Z.eqb_spec id 1); [lia|]. destruct (Z.ltb_spec id 0); [done|].
        rewrite lookup_ge_None_2 in E by lia. done.
    - by destruct (random_ok a Hwf draws s id s' T Hd E) as (_&X1&_).
    - destruct (decide (0 <= id < Z.of_nat (length (r_tab s)))) as [Hid|Hid].
      + destruct (rsuccs_ok a Hwf s id draws ok Hok T Hid Hd) as (s1&i1&c1&E1&_&X1&_). rewrite E1 in E. by injection E as <- <- <-.
      + exfalso. unfold ra_GetRandomSuccs in E. destruct (t_goal _ _ T) as (Eg&Ege&_). rewrite Eg, Ege in E. cbn [e_id] in E.
        apply lookup_lt_Some in Ege. destruct (Z.eqb_spec id 1); [lia|]. destruct (Z.ltb_spec id 0); [done|].
        rewrite lookup_ge_None_2 in E by lia. done. }
  split; [done|]. exists e. split; [by eapply ext_lookup|done].
Qed.
Print Assumptions C84_robarm_ids_stable.

(** Initialising an object a second time always throws: the index table of the base class is not cleared. *)
Theorem C84_robarm_second_init_refuted : forall a a' s, arm_wf a -> small_steps a -> reach a s ->
  exists s', ra_Init a' s = Exn s'.
Proof.
  intros a a' s Hwf Hsm HR. pose proof (reach_tinv a s Hwf Hsm (ok_exists a Hwf) HR) as T. apply init_again.
  rewrite (t_map _ _ T). destruct (t_goal _ _ T) as (_&Ege&_). apply lookup_lt_Some in Ege. lia.
Qed.
Print Assumptions C84_robarm_second_init_refuted.

(** * C85 *)
(** GetSuccs never fails for an existing state. The goal has no successors. Any other state gets, in
    order of joint and direction, exactly the collision-free configurations one step of one joint away, each
    at cost 1: as the goal if the end effector is in the goal cell, else as the state that stands for it (that
    this state is the goal's own is excluded if the all-zero configuration is harmless). *)
Theorem C85_robarm_successors : forall a s id ok, arm_wf a -> small_steps a -> reach a s ->
  (forall c, ok c = true <-> config_ok a c) -> 0 <= id < Z.of_nat (length (r_tab s)) ->
  exists s' ids costs, ra_GetSuccs a s id = Ok (s', ids, costs) /\
    (is_goal s id -> ids = [] /\ costs = []) /\
    (~ is_goal s id -> exists c, stands_for s id c /\
      let L := filter (fun c' => ok c' = true) (neighbours a c) in
      costs = replicate (length L) 1 /\
      Forall2 (fun v c' => (tip a c' = goal_cell a -> is_goal s' v) /\
        (tip a c' <> goal_cell a -> stands_for s' v c' /\ (zero_config_harmless a -> ~ is_goal s' v))) ids L).
Proof.
  intros a s id ok Hwf Hsm HR Hok Hid. pose proof (reach_tinv a s Hwf Hsm (ex_intro _ ok Hok) HR) as T.
  destruct (succs_ok a Hwf s id ok Hok Hsm T Hid) as (s'&ids&costs&E&T'&X&Hg&Hng). exists s', ids, costs. split; [done|].
  unfold is_goal at 1 2. rewrite (proj1 (t_goal _ _ T)). split; [done|]. intros Hne. destruct (Hng Hne) as (e&He&Hi&HN&HC).
  exists (e_coord e). split; [split; [lia|]; eauto|]. split; [done|].
  rewrite Forall2_lookup in HN |- *. intros i. specialize (HN i). inversion HN as [v c' Hv Hl1 Hl2|]; [|constructor].
  constructor. unfold names in Hv. split.
  - intros Ht. apply goalb_spec in Ht. by rewrite Ht in Hv.
  - intros Ht. destruct (goalb a c') eqn:Eg; [by apply goalb_spec in Eg|]. destruct Hv as [Hst Hz]. split; [done|].
    intros Hh Hgv. destruct (Hz Hgv) as [-> Hs0]. symmetry in Hl2. apply elem_of_list_lookup_2, elem_of_list_filter in Hl2 as [Hl2 _]. apply Hok in Hl2.
    destruct Hh as [?|[?|?]]; done.
Qed.
Print Assumptions C85_robarm_successors.

(** GetEdgeCost of two existing states is 1 if both stand for collision-free configurations and 1000000000 otherwise.
    Hence it is 1 between any two states other than the goal (whether or not they are neighbours). *)
Theorem C85_robarm_edge_cost : forall a s u v cu cv, arm_wf a -> small_steps a -> reach a s ->
  stands_for s u cu -> stands_for s v cv ->
  (config_ok a cu /\ config_ok a cv -> ra_GetEdgeCost a s u v = Ok 1) /\
  (~ (config_ok a cu /\ config_ok a cv) -> ra_GetEdgeCost a s u v = Ok 1000000000) /\
  (~ is_goal s u -> ~ is_goal s v -> ra_GetEdgeCost a s u v = Ok 1).
Proof.
  intros a s u v cu cv Hwf Hsm HR (Hu0&eu&Heu&Hiu&Hcu) (Hv0&ev&Hev&Hiv&Hcv).
  assert ((config_ok a cu /\ config_ok a cv -> ra_GetEdgeCost a s u v = Ok 1) /\
    (~ (config_ok a cu /\ config_ok a cv) -> ra_GetEdgeCost a s u v = Ok 1000000000)) as [H1 H2].
  { unfold ra_GetEdgeCost, ra_cost. destruct (Z.ltb_spec u 0); [lia|]. destruct (Z.ltb_spec v 0); [lia|]. cbn [orb].
    rewrite Heu, Hev, Hcu, Hcv. destruct (valid_spec a Hwf cu) as (b&Eb&Hb), (valid_spec a Hwf cv) as (b'&Eb'&Hb').
    rewrite Eb. cbn [obind]. destruct b; [rewrite Eb'; cbn [obind]; destruct b'|].
    - split; [done|]. intros Hn. exfalso. apply Hn. split; [by apply Hb|by apply Hb'].
    - split; [|done]. intros [_ Hx]. by apply Hb' in Hx.
    - split; [|done]. intros [Hx _]. by apply Hb in Hx. }
  split; [done|]. split; [done|]. intros Hgu Hgv. apply H1.
  destruct (C84_robarm_states a s Hwf Hsm HR) as (_&_&_&G). split; [eapply (G u)|eapply (G v)]; try done; split; eauto.
Qed.
Print Assumptions C85_robarm_edge_cost.

(** A demo arm on a free 3x3 map: the first joint has four values that put the end effector at
    (0,2), (1,2), (2,2), (1,2); the other joints do not move it. *)
Definition demo_joint (c : list Z) (k : nat) : point :=
  mkPt false false false false
    (if decide (k = 6%nat) then (match c !! 0%nat with Some 0 => 0 | Some 2 => 2 | _ => 1 end) else 1) 2.
Definition demo_arm (start : list Z) (gx gy : Z) : arm :=
  mkArm 3 3 (demo_grid []) gx gy [4;4;4;4;4;4] demo_joint start.
Lemma demo_wf start gx gy : config (demo_arm start gx gy) start -> 0 <= gx -> 0 <= gy -> arm_wf (demo_arm start gx gy).
Proof.
  intros Hs Hx Hy. constructor; try done.
  - apply demo_full.
  - intros i n Hi. assert (n = 4) as ->; [|lia]. do 6 (destruct i as [|i]; [by injection Hi|]). done.
Qed.
Lemma demo_tip start gx gy c : tip (demo_arm start gx gy) c = (match c !! 0%nat with Some 0 => 0 | Some 2 => 2 | _ => 1 end, 2).
Proof. unfold tip, cell_at, demo_arm, ContXY2Cell, demo_joint. simpl. destruct (c !! 0%nat) as [[|[[]|[]|]|]|]; reflexivity. Qed.
Lemma demo_small start gx gy : small_steps (demo_arm start gx gy).
Proof.
  intros c c' [Hl Hr] _ _ Hn. rewrite !demo_tip. destruct c as [|v c]; [done|].
  assert (0 <= v < 4) as Hv by (apply (Hr 0%nat v 4); done).
  assert (v = 0 \/ v = 1 \/ v = 2 \/ v = 3) as Hv' by lia.
  assert (c' !! 0%nat = Some v \/ c' !! 0%nat = Some ((v + -1) mod 4) \/ c' !! 0%nat = Some ((v + 1) mod 4)) as Hc.
  { unfold neighbours in Hn. simpl in Hn.
    assert (forall i d, (turn (demo_arm start gx gy) (v :: c) (S i) d) !! 0%nat = Some v) as G.
    { intros i d. unfold turn. destruct ((v :: c) !! S i), (a_vals (demo_arm start gx gy) !! S i); try done. }
    repeat (apply elem_of_cons in Hn as [-> |Hn]; [first [left; by apply G | right; left; reflexivity | right; right; reflexivity]|]).
    by apply elem_of_nil in Hn. }
  destruct Hv' as [-> |[-> |[-> | ->]]], Hc as [-> |[-> | ->]]; vm_compute; split; congruence.
Qed.
Lemma demo_config start gx gy v : 0 <= v < 4 -> config (demo_arm start gx gy) [v;0;0;0;0;0].
Proof.
  intros Hv. split; [done|]. intros i x n Hx Hn. do 6 (destruct i as [|i]; [simpl in *; simplify_eq; lia|]). done.
Qed.

(** The environment as a whole on the demo arm (start (0,..,0), goal cell (2,2)): three joint steps lead to the goal. *)
Definition demo_run (start : list Z) (gx gy : Z) (ids : list Z) : outcome robarm (robarm * list (list Z)) :=
  do r <- ra_Init (demo_arm start gx gy) new_robarm;
  ra_iter ids (fun id (st : robarm * list (list Z)) =>
    do r <- ra_GetSuccs (demo_arm start gx gy) st.1 id; Ok (r.1.1, st.2 ++ [r.1.2])) (r.2, []).
Example C85_demo :
  match demo_run [0;0;0;0;0;0] 2 2 [0; 3; 1] with
  | Ok r => r.2 = [[2;3;4;5;6;7;8;9;10;11;12;13]; [0;1;14;15;16;17;18;19;20;21;22;23]; []]
  | _ => False
  end.
Proof. vm_compute. reflexivity. Qed.
Example C85_demo_hypotheses :
  arm_wf (demo_arm [0;0;0;0;0;0] 2 2) /\ small_steps (demo_arm [0;0;0;0;0;0] 2 2) /\ zero_config_harmless (demo_arm [0;0;0;0;0;0] 2 2) /\
  exists s, reach (demo_arm [0;0;0;0;0;0] 2 2) s.
Proof.
  assert (arm_wf (demo_arm [0;0;0;0;0;0] 2 2)) as Hwf by (apply demo_wf; [apply demo_config; lia|lia|lia]).
  split_and!; [done|apply demo_small|by right; left|].
  destruct (C84_robarm_init _ Hwf) as (b&s&E&Hb&_). exists s. apply reach_init. rewrite E. do 2 f_equal. apply Hb.
  split; [|unfold in_map; simpl; lia]. apply (valid_iff _ Hwf). vm_compute. reflexivity.
Qed.

(** Without the assumption on the all-zero configuration the goal is reported falsely: start (1,0,..,0) with the end
    effector at (1,2), goal cell (0,0) - which the arm cannot reach at all - and yet the goal is a successor of the start. *)
Theorem C85_robarm_false_goal_refuted :
  arm_wf (demo_arm [1;0;0;0;0;0] 0 0) /\ small_steps (demo_arm [1;0;0;0;0;0] 0 0) /\
  (forall c, tip (demo_arm [1;0;0;0;0;0] 0 0) c <> goal_cell (demo_arm [1;0;0;0;0;0] 0 0)) /\
  match demo_run [1;0;0;0;0;0] 0 0 [0] with
  | Ok r => r.2 = [[1;2;3;4;5;6;7;8;9;10;11;12]] /\ is_goal r.1 1
  | _ => False
  end.
Proof.
  split_and!.
  - apply demo_wf; [apply demo_config; lia|lia|lia].
  - apply demo_small.
  - intros c. rewrite demo_tip. unfold goal_cell. simpl. congruence.
  - vm_compute. split; reflexivity.
Qed.
Print Assumptions C85_robarm_false_goal_refuted.

(** * C86 *)
Lemma names_eff a s id c : arm_wf a -> zero_config_harmless a -> tinv a s -> config_ok a c -> names a s id c ->
  0 <= id /\ exists e, r_tab s !! Z.to_nat id = Some e /\ e_eff e = tip a c.
Proof.
  intros Hwf Hh T Hok. unfold names, is_goal. destruct (t_goal _ _ T) as (Eg&Ege&_). rewrite Eg. destruct (goalb a c) eqn:Eb.
  - intros ->. split; [lia|]. eexists. split; [exact Ege|]. simpl. symmetry. by apply goalb_spec.
  - intros [(H0&e&He&Hi&Hc) Hz]. split; [done|]. exists e. split; [done|].
    destruct (decide (id = 1)) as [-> |Hne].
    + destruct (Hz eq_refl) as [-> Hs]. destruct Hh as [?|[?|Ht]]; [done|done|]. apply goalb_spec in Ht. unfold zeros in Eb. congruence.
    + destruct (t_valid _ _ T _ _ He ltac:(lia)) as [_ ->]. by rewrite Hc.
Qed.

(** The goal heuristic is 0 at the goal, never negative, equal to the 2D distance of the end effector to the
    goal cell, and consistent: along every reported edge it drops by at most the cost of the edge. *)
Theorem C86_robarm_heuristic_consistent : forall a s id, arm_wf a -> small_steps a -> zero_config_harmless a -> reach a s ->
  0 <= id < Z.of_nat (length (r_tab s)) ->
  exists hu s' ids costs, ra_GetGoalHeuristic a s id = Ok hu /\ 0 <= hu /\ (is_goal s id -> hu = 0) /\
    (forall c, stands_for s id c -> ~ is_goal s id -> shortest (a_w a) (a_h a) (a_grid a) (goal_cell a) (tip a c) hu) /\
    ra_GetSuccs a s id = Ok (s', ids, costs) /\
    forall i v k, ids !! i = Some v -> costs !! i = Some k ->
      exists hv, ra_GetGoalHeuristic a s' v = Ok hv /\ hu <= k + hv.
Proof.
  intros a s id Hwf Hsm Hh HR Hid. destruct (ok_exists a Hwf) as [ok Hok].
  pose proof (reach_tinv a s Hwf Hsm (ex_intro _ ok Hok) HR) as T.
  destruct (lookup_lt_is_Some_2 (r_tab s) (Z.to_nat id)) as [e He]; [lia|].
  destruct (goal_heur_ok a Hwf s id e T ltac:(lia) He) as (hu&Ehu&Hhu).
  destruct (succs_ok a Hwf s id ok Hok Hsm T Hid) as (s'&ids&costs&E&T'&X&Hg&Hng).
  exists hu, s', ids, costs. split; [done|]. split; [by eapply shortest_nonneg|].
  unfold is_goal. rewrite (proj1 (t_goal _ _ T)). split; [|split; [|split; [done|]]].
  - intros ->. destruct (t_goal _ _ T) as (_&Ege&_). change (Z.to_nat (Z.of_nat 1)) with 1%nat in He. rewrite Ege in He. injection He as <-.
    by eapply shortest_src.
  - intros c (_&e'&He'&Hi&Hc) Hne. assert (e' = e) as -> by congruence.
    destruct (t_valid _ _ T _ _ He ltac:(lia)) as [_ Heff]. rewrite Heff, Hc in Hhu. done.
  - intros i v k Hv Hk. destruct (decide (id = 1)) as [Hi1|Hi1]; [destruct (Hg Hi1) as [-> _]; done|].
    destruct (Hng Hi1) as (e'&He'&Hi&HN&HC). assert (e' = e) as -> by congruence.
    destruct (Forall2_lookup_l _ _ _ _ _ HN Hv) as (c'&Hc'&Hnm).
    assert (k = 1) as ->. { rewrite HC in Hk. by apply lookup_replicate in Hk as [-> _]. }
    apply elem_of_list_lookup_2, elem_of_list_filter in Hc' as [Hokc' Hnb]. apply Hok in Hokc'.
    destruct (names_eff a s' v c' Hwf Hh T' Hokc' Hnm) as (Hv0&ev&Hev&Heffv).
    destruct (goal_heur_ok a Hwf s' v ev T' Hv0 Hev) as (hv&Ehv&Hhv). exists hv. split; [done|].
    destruct (t_id _ _ T _ _ He) as [_ Hce]. destruct (t_valid _ _ T _ _ He ltac:(lia)) as [Hoke Heff].
    destruct (Hsm _ _ Hce Hoke Hokc' Hnb) as [Hx Hy].
    pose proof (shortest_step a (a_grid a) (goal_cell a) (tip a (e_coord e)) (tip a c') hu hv) as G.
    rewrite Heff in Hhu. rewrite Heffv in Hhv. specialize (G (tip_free a _ Hoke) Hx Hy Hhu Hhv). lia.
Qed.
Print Assumptions C86_robarm_heuristic_consistent.

(** With the falsely reported goal the heuristic is inconsistent: 2 at the start, 0 at its successor at cost 1. *)
Theorem C86_robarm_heuristic_refuted :
  arm_wf (demo_arm [1;0;0;0;0;0] 0 0) /\ small_steps (demo_arm [1;0;0;0;0;0] 0 0) /\
  match demo_run [1;0;0;0;0;0] 0 0 [0] with
  | Ok r => ra_GetGoalHeuristic (demo_arm [1;0;0;0;0;0] 0 0) r.1 0 = Ok 2 /\ (r.2 !! 0%nat) ≫= (fun ids => ids !! 0%nat) = Some 1 /\
            ra_GetGoalHeuristic (demo_arm [1;0;0;0;0;0] 0 0) r.1 1 = Ok 0
  | _ => False
  end.
Proof.
  split_and!.
  - apply demo_wf; [apply demo_config; lia|lia|lia].
  - apply demo_small.
  - vm_compute. split_and!; reflexivity.
Qed.
Print Assumptions C86_robarm_heuristic_refuted.

(** * C87 *)
(** GetRandomState returns as soon as a drawn configuration is collision free; the state it returns is the goal
    if the end effector of that configuration is in the goal cell, else a state standing for it. *)
Theorem C87_robarm_random_state : forall a s draws, arm_wf a -> small_steps a -> reach a s -> Forall (config a) draws ->
  (exists c, c ∈ draws /\ config_ok a c) ->
  exists id s' i c, ra_GetRandomState a s draws = Ok (id, s') /\ draws !! i = Some c /\ config_ok a c /\
    (forall j c', (j < i)%nat -> draws !! j = Some c' -> ~ config_ok a c') /\
    (tip a c = goal_cell a -> is_goal s' id) /\ (tip a c <> goal_cell a -> stands_for s' id c).
Proof.
  intros a s draws Hwf Hsm HR Hd Hex. pose proof (reach_tinv a s Hwf Hsm (ok_exists a Hwf) HR) as T.
  destruct (random_total a Hwf draws s T Hd Hex) as (id&s'&E).
  destruct (random_ok a Hwf draws s id s' T Hd E) as (_&_&i&c&Hc&Hok&Hn&Hj). exists id, s', i, c. split; [done|]. split; [done|]. split; [done|]. split; [done|].
  unfold names in Hn. split.
  - intros Ht. apply goalb_spec in Ht. by rewrite Ht in Hn.
  - intros Ht. destruct (goalb a c) eqn:Eg; [by apply goalb_spec in Eg|]. apply Hn.
Qed.
Print Assumptions C87_robarm_random_state.

(** GetRandomSuccsatDistance never fails for an existing state.  Of the drawn configurations exactly the
    collision-free ones whose end effector is within 30 cells of that of the state are reported, in order (as the goal or as
    the state standing for them), then the goal if it is within 30 cells.  The lower bound reported with each
    is the 2D distance between the end-effector cells of the two states. The goal has none. *)
Theorem C87_robarm_random_succs : forall a s id draws ok, arm_wf a -> small_steps a -> reach a s -> Forall (config a) draws ->
  (forall c, ok c = true <-> config_ok a c) -> 0 <= id < Z.of_nat (length (r_tab s)) ->
  exists s' ids lows eu, ra_GetRandomSuccs a s id draws = Ok (s', ids, lows) /\ length ids = length lows /\
  r_tab s !! Z.to_nat id = Some eu /\ r_tab s' !! Z.to_nat id = Some eu /\
  (forall i v low, ids !! i = Some v -> lows !! i = Some low ->
    0 <= v /\ exists ev, r_tab s' !! Z.to_nat v = Some ev /\ e_id ev = v /\
      shortest (a_w a) (a_h a) (a_grid a) (e_eff ev) (e_eff eu) low) /\
  (is_goal s id -> ids = []) /\
  (~ is_goal s id ->
    let near (x : Z * Z) := (Z.abs ((e_eff eu).1 - x.1) <=? 30) && (Z.abs ((e_eff eu).2 - x.2) <=? 30) in
    exists ids', ids = ids' ++ (if near (goal_cell a) then [1] else []) /\
      Forall2 (fun v c => (tip a c = goal_cell a -> is_goal s' v) /\ (tip a c <> goal_cell a -> stands_for s' v c)) ids'
        (filter (fun c => ok c && near (tip a c) = true) draws)).
Proof.
  intros a s id draws ok Hwf Hsm HR Hd Hok Hid. pose proof (reach_tinv a s Hwf Hsm (ex_intro _ ok Hok) HR) as T.
  destruct (rsuccs_ok a Hwf s id draws ok Hok T Hid Hd) as (s'&ids&lows&E&T'&X&e&He&HF&Hg&Hng). exists s', ids, lows, e. split; [done|].
  split; [by eapply Forall2_length|]. split; [done|]. split; [by eapply ext_lookup|]. split; [|split].
  - intros i v low Hv Hlow. destruct (Forall2_lookup_lr _ _ _ _ _ _ HF Hv Hlow) as (H0&ev&Hev&Hi&Hs). split; [done|]. exists ev. done.
  - unfold is_goal. rewrite (proj1 (t_goal _ _ T)). exact Hg.
  - unfold is_goal at 1. rewrite (proj1 (t_goal _ _ T)). intros Hne. destruct (Hng Hne) as (ids'&E'&HN). exists ids'. split; [exact E'|].
    eapply Forall2_impl; [exact HN|]. intros v c Hn. unfold names in Hn. split.
    + intros Ht. apply goalb_spec in Ht. by rewrite Ht in Hn.
    + intros Ht. destruct (goalb a c) eqn:Eg; [by apply goalb_spec in Eg|]. apply Hn.
Qed.
Print Assumptions C87_robarm_random_succs.

Example C87_demo :
  match ra_Init (demo_arm [0;0;0;0;0;0] 2 2) new_robarm with
  | Ok r => match ra_GetRandomSuccs (demo_arm [0;0;0;0;0;0] 2 2) r.2 0 [[1;2;3;0;0;0]; [2;1;0;0;0;3]] with
            | Ok q => q.1.2 = [2; 1; 1] /\ q.2 = [1; 2; 2]
            | _ => False
            end
  | _ => False
  end.
Proof. vm_compute. split; reflexivity. Qed.
