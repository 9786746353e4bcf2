(** Model of class EnvironmentNAV2DUU (navigation on a map with uncertain cells),
    /repo/src/discrete_space_information/environment_nav2Duu.cpp and its header.
    Simplified: the [float] probabilities are exact rationals (no NaN, and 1 - ProbObs is not
    rounded); int arithmetic is unbounded; allocation never fails; reading the configuration file
    (lines 60-190) and printing are left out.  A heap array is a finite map from the cells that have been
    written: reading a cell that is not in it is undefined behaviour. *)
From Verif Require Import Base EvalModel.
Local Open Scope Z_scope.

(** environment_nav2Duu.h:41 ENVNAV2DUU_COSTMULT, :43 ENVNAV2DUU_MAXDIRS, :85 NAVNAV2DUU_MAXWIDTHHEIGH. *)
Definition UU_COSTMULT : Z := 1000.
Definition UU_MAXDIRS : Z := 8.
Definition UU_MAXWH : Z := 1024.
(** environment_nav2Duu.cpp:44 NAV2DUU_ERR_EPS (no float lies between it and the double next to it). *)
Definition UU_EPS : Q := 1 # 100000.

(** environment_nav2Duu.h:86-88 (the quotient and the remainder of C++ truncate towards zero). *)
Definition uu_toy (id : Z) : Z := Z.rem id UU_MAXWH.
Definition uu_tox (id : Z) : Z := Z.quot id UU_MAXWH.
Definition uu_toid (x y : Z) : Z := x * UU_MAXWH + y.

(** The C++ [>=] on floats, here on rationals (no code of its own). *)
Definition qgeb (x y : Q) : bool := Qle_bool y x.

(** environment_nav2Duu.h:49-83 ENV_NAV2DUU_CONFIG and :90-97 EnvironmentNAV2DUU_t. *)
Record uuenv := mkUU {
  uu_w : Z; uu_h : Z; uu_thr : Z;
  uu_grid : gmap (Z * Z) Z;       (* Grid2D *)
  uu_unc : gmap (Z * Z) Q;        (* UncertaintyGrid2D *)
  uu_hid : gmap (Z * Z) Z;        (* HiddenVariableXY2ID *)
  uu_ndirs : Z;                   (* numofdirs *)
  uu_sizeS : Z; uu_sizeH : Z;
  uu_sx : Z; uu_sy : Z; uu_ex : Z; uu_ey : Z;
  uu_startid : Z; uu_goalid : Z }.

(** A counting loop (no code of its own). *)
Fixpoint uu_for {St} (is : list Z) (body : Z -> St -> outcome unit St) (s : St) : outcome unit St :=
  match is with
  | [] => Ok s
  | i :: is => do s' <- body i s; uu_for is body s'
  end.
(** An array read through a pointer (no code of its own). *)
Definition uu_read {A} (l : list A) (i : Z) : option A := if i <? 0 then None else l !! Z.to_nat i.

(** environment_nav2Duu.cpp:217-218 and 251-252 the test for an uncertain cell. *)
Definition uu_uncertain (p : Q) : bool := qgeb p UU_EPS && Qle_bool p (1 - UU_EPS).

(** environment_nav2Duu.cpp:209-220 one cell of the map. *)
Definition uu_setcell (w : Z) (map : option (list Z)) (umap : option (list Q)) (y x : Z)
    (s : gmap (Z * Z) Z * gmap (Z * Z) Q * Z) : outcome unit (gmap (Z * Z) Z * gmap (Z * Z) Q * Z) :=
  let '(g, u, n) := s in
  match map with
  | None => Ok (<[(x, y) := 0]> g, <[(x, y) := 0%Q]> u, n)
  | Some m =>
    match umap with
    | None => UB
    | Some um =>
      match uu_read m (x + y * w), uu_read um (x + y * w) with
      | Some c, Some p => Ok (<[(x, y) := c]> g, <[(x, y) := p]> u, if uu_uncertain p then n + 1 else n)
      | _, _ => UB
      end
    end
  end.

(** environment_nav2Duu.cpp:182-226 SetConfiguration: the two matrices and sizeofH. A negative array
    size throws std::bad_array_new_length (lines 197-202). *)
Definition uu_SetConfiguration (w h : Z) (map : option (list Z)) (umap : option (list Q)) :
    outcome unit (gmap (Z * Z) Z * gmap (Z * Z) Q * Z) :=
  if (w <? 0) || ((0 <? w) && (h <? 0)) then Exn tt
  else uu_for (seqZ 0 h) (fun y => uu_for (seqZ 0 w) (fun x => uu_setcell w map umap y x)) (∅, ∅, 0).

(** environment_nav2Duu.cpp:248-259 one cell of HiddenVariableXY2ID. *)
Definition uu_hidcell (u : gmap (Z * Z) Q) (x y : Z) (s : gmap (Z * Z) Z * Z) : outcome unit (gmap (Z * Z) Z * Z) :=
  match u !! (x, y) with
  | None => UB
  | Some p => if uu_uncertain p then Ok (<[(x, y) := s.2]> s.1, s.2 + 1)
              else Ok (<[(x, y) := -1]> s.1, s.2)
  end.

(** environment_nav2Duu.cpp:239-264 InitializeEnvConfig, the hidden variables. The inner loop really
    runs to EnvWidth_c (line 250). *)
Definition uu_hidden (w sizeH : Z) (u : gmap (Z * Z) Q) : outcome unit (gmap (Z * Z) Z) :=
  do s <- uu_for (seqZ 0 w) (fun x => uu_for (seqZ 0 w) (fun y => uu_hidcell u x y)) (∅, 0);
  if s.2 =? sizeH then Ok (s.1) else Exn tt.

(** environment_nav2Duu.cpp:452-464 InitializeEnv(width, height, ...), 182-237 SetConfiguration and
    InitializeEnvironment, 466-478 InitGeneral. [nd] is whatever the member numofdirs holds: neither
    the constructor (lines 49-52) nor any other function of the class ever writes it. *)
Definition uu_init (nd w h : Z) (map : option (list Z)) (umap : option (list Q)) (thr : Z) : outcome unit uuenv :=
  do c <- uu_SetConfiguration w h map umap;
  do hid <- uu_hidden w (c.2) (c.1.2);
  Ok (mkUU w h thr (c.1.1) (c.1.2) hid nd (w * h) (c.2) 0 0 0 0 (uu_toid 0 0) (uu_toid 0 0)).

(** environment_nav2Duu.cpp:266-274 SizeofCreatedEnv, SizeofH. *)
Definition uu_SizeofCreatedEnv (s : uuenv) : Z := uu_sizeS s.
Definition uu_SizeofH (s : uuenv) : Z := uu_sizeH s.
(** environment_nav2Duu.cpp:480-487 InitializeMDPCfg: (startstateid, goalstateid). *)
Definition uu_InitializeMDPCfg (s : uuenv) : Z * Z := (uu_startid s, uu_goalid s).

(** environment_nav2Duu.cpp:283-286 IsWithinMapCell. *)
Definition uu_within (s : uuenv) (x y : Z) : bool :=
  (0 <=? x) && (x <? uu_w s) && (0 <=? y) && (y <? uu_h s).

(** environment_nav2Duu.cpp:666-682 SetGoal; the validity test only prints a warning. *)
Definition uu_SetGoal (s : uuenv) (x y : Z) : uuenv * Z :=
  if negb (uu_within s x y) then (s, -1)
  else (mkUU (uu_w s) (uu_h s) (uu_thr s) (uu_grid s) (uu_unc s) (uu_hid s) (uu_ndirs s) (uu_sizeS s) (uu_sizeH s)
             (uu_sx s) (uu_sy s) x y (uu_startid s) (uu_toid x y), uu_toid x y).
(** environment_nav2Duu.cpp:685-701 SetStart. *)
Definition uu_SetStart (s : uuenv) (x y : Z) : uuenv * Z :=
  if negb (uu_within s x y) then (s, -1)
  else (mkUU (uu_w s) (uu_h s) (uu_thr s) (uu_grid s) (uu_unc s) (uu_hid s) (uu_ndirs s) (uu_sizeS s) (uu_sizeH s)
             x y (uu_ex s) (uu_ey s) (uu_toid x y) (uu_goalid s), uu_toid x y).
(** environment_nav2Duu.cpp:703-708 UpdateCost; the coordinates are not checked. *)
Definition uu_UpdateCost (s : uuenv) (x y c : Z) : outcome unit (uuenv * bool) :=
  match uu_grid s !! (x, y) with
  | None => UB
  | Some _ =>
    Ok (mkUU (uu_w s) (uu_h s) (uu_thr s) (<[(x, y) := c]> (uu_grid s)) (uu_unc s) (uu_hid s) (uu_ndirs s)
             (uu_sizeS s) (uu_sizeH s) (uu_sx s) (uu_sy s) (uu_ex s) (uu_ey s) (uu_startid s) (uu_goalid s), true)
  end.

(** environment_nav2Duu.cpp:291-338 the tables dx_, dy_ of Computedxy. *)
Definition uu_dirs : list (Z * Z) := [(1, 1); (1, 0); (1, -1); (0, 1); (0, -1); (-1, 1); (-1, 0); (-1, -1)].
(** environment_nav2Duu.cpp:340-355 dxy_distance_mm_: (int)(1000 * 1.414) is 1414. *)
Definition uu_dist (dx dy : Z) : Z :=
  if negb (dx =? 0) && negb (dy =? 0) then 1414 else UU_COSTMULT.

(** utils.h:196-201 sbpl_BinaryHiddenVar_t: (h_ID, Prob); Prob is an unsigned char. *)
Definition hvar : Type := Z * Z.
Definition hvar_lt_eps (v : hvar) : bool := qltb (inject_Z v.2) UU_EPS.

(** environment_nav2Duu.cpp:555-562 the scan over the updated hidden variables: (ProbObs, bFreeh). *)
Fixpoint uu_scan (upd : list hvar) (hid : Z) (p : Q) (fr : bool) : Q * bool :=
  match upd with
  | [] => (p, fr)
  | v :: upd => uu_scan upd hid (if v.1 =? hid then inject_Z v.2 else p) (if hvar_lt_eps v then true else fr)
  end.

(** environment_nav2Duu.cpp:601-609 and 618-626 the search for a hidden variable known to be free. *)
Fixpoint uu_knownfree (upd : list hvar) (id : Z) : bool :=
  match upd with
  | [] => false
  | v :: upd => if v.1 =? id then (if hvar_lt_eps v then true else uu_knownfree upd id) else uu_knownfree upd id
  end.

(** environment_nav2Duu.cpp:596-611 (and 613-628) the test of one intersecting cell of a diagonal
    move: true when the move goes on. *)
Definition uu_intersect (s : uuenv) (upd : list hvar) (bFreeh : bool) (x y : Z) : outcome unit bool :=
  match uu_unc s !! (x, y) with
  | None => UB
  | Some p =>
    if qgeb p UU_EPS then
      if negb bFreeh then Ok false
      else match uu_hid s !! (x, y) with
           | None => UB
           | Some id => Ok (uu_knownfree upd id)
           end
    else Ok true
  end.

(** utils.h [__max]. *)
Definition uu_max (a b : Z) : Z := if a >? b then a else b.

(** mdp.h:44-82 CMDPACTION: (ActionID, SourceStateID, outcomes (SuccsID, Costs, SuccsProb)). *)
Record uuact := mkUA { ua_id : Z; ua_src : Z; ua_outs : list (Z * Z * Q) }.

(** environment_nav2Duu.cpp:593-633 the running cost multiplier of one move; None is [continue]. *)
Definition uu_costmult (s : uuenv) (upd : list hvar) (bFreeh : bool) (destx desty px py cm : Z) : outcome unit (option Z) :=
  if negb (px =? destx) && negb (py =? desty) then
    do ok1 <- uu_intersect s upd bFreeh destx py;
    if negb ok1 then Ok None
    else
      do ok2 <- uu_intersect s upd bFreeh px desty;
      if negb ok2 then Ok None
      else match uu_grid s !! (destx, py), uu_grid s !! (px, desty) with
           | Some g1, Some g2 => Ok (Some (uu_max (uu_max cm g1) g2))
           | _, _ => UB
           end
  else Ok (Some cm).

(** environment_nav2Duu.cpp:579-662 one neighbour: the action, or None for [continue]. [bDet] chooses
    the kind of the action. *)
Definition uu_neighbour (s : uuenv) (upd : list hvar) (bFreeh bDet : bool) (p : Q) (id destx desty destcm aind : Z) :
    outcome unit (option uuact) :=
  match uu_read uu_dirs aind with
  | None => UB
  | Some (dx, dy) =>
    let px := destx + dx in
    let py := desty + dy in
    if negb (uu_within s px py) then Ok None
    else
      match uu_grid s !! (px, py) with
      | None => UB
      | Some gp =>
        if gp >=? uu_thr s then Ok None
        else
          do ocm <- uu_costmult s upd bFreeh destx desty px py (uu_max destcm gp);
          match ocm with
          | None => Ok None
          | Some cm =>
            if cm >=? uu_thr s then Ok None
            else
              let cost := (cm + 1) * uu_dist dx dy in
              let pid := uu_toid px py in
              Ok (Some (mkUA aind pid (if bDet then [(id, cost, 1%Q)] else [(id, cost, (1 - p)%Q); (pid, 2 * cost, p)])))
          end
      end
  end.

(** The three output vectors of GetPreds. *)
Definition uupreds : Type := list uuact * list uuact * list hvar.

(** environment_nav2Duu.cpp:578-662 the loop over the directions: push_back on the three vectors. *)
Definition uu_loop (s : uuenv) (upd : list hvar) (bFreeh bDet : bool) (p : Q) (id destx desty destcm hid : Z)
    (is : list Z) (acc : uupreds) : outcome unit uupreds :=
  uu_for is (fun aind acc =>
    do oa <- uu_neighbour s upd bFreeh bDet p id destx desty destcm aind;
    match oa with
    | None => Ok acc
    | Some a => if bDet then Ok (acc.1.1 ++ [a], acc.1.2, acc.2)
                else Ok (acc.1.1, acc.1.2 ++ [a], acc.2 ++ [(hid, 1)])
    end) acc.

(** environment_nav2Duu.cpp:526-663 GetPreds. Line 567 sets bDet to false where its comment ("now it
    is a deterministic cell") says the opposite. *)
Definition uu_GetPreds (s : uuenv) (id : Z) (upd : list hvar) : outcome unit uupreds :=
  let destx := uu_tox id in
  let desty := uu_toy id in
  if negb (uu_within s destx desty) then Ok ([], [], [])
  else
    match uu_grid s !! (destx, desty) with
    | None => UB
    | Some destcm =>
      if destcm >=? uu_thr s then Ok ([], [], [])
      else
        match uu_unc s !! (destx, desty), uu_hid s !! (destx, desty) with
        | Some u, Some hid =>
          let bDet := qltb u UU_EPS in
          let '(p, bFreeh) := uu_scan upd hid u false in
          if qltb (1 - UU_EPS) p then Ok ([], [], [])
          else
            let bDet := if qltb p UU_EPS then false else bDet in
            uu_loop s upd bFreeh bDet p id destx desty destcm hid (seqZ 0 (uu_ndirs s)) ([], [], [])
        | _, _ => UB
        end
    end.

(** environment_nav2Duu.cpp:489-524 GetFromToHeuristic, GetGoalHeuristic, GetStartHeuristic with
    USE_HEUR = 1 (config.h:41): they always throw. *)
Definition uu_GetFromToHeuristic (from to : Z) : outcome unit Z := Exn tt.
Definition uu_GetGoalHeuristic (id : Z) : outcome unit Z := Exn tt.
Definition uu_GetStartHeuristic (id : Z) : outcome unit Z := Exn tt.
(** environment_nav2Duu.h:192-219 SetAllActionsandAllOutcomes, SetAllPreds, GetSuccs and the two-vector
    GetPreds of the planner interface: they always throw. *)
Definition uu_GetSuccs (id : Z) : outcome unit (list (Z * Z)) := Exn tt.
Definition uu_GetPreds2 (id : Z) : outcome unit (list (Z * Z)) := Exn tt.

(** The calls a user makes after InitializeEnv (no code of its own). *)
Inductive uuop := UuStart (x y : Z) | UuGoal (x y : Z) | UuUpdate (x y c : Z).
Definition uu_step (s : uuenv) (o : uuop) : outcome unit uuenv :=
  match o with
  | UuStart x y => Ok (uu_SetStart s x y).1
  | UuGoal x y => Ok (uu_SetGoal s x y).1
  | UuUpdate x y c => do r <- uu_UpdateCost s x y c; Ok (r.1)
  end.
Fixpoint uu_run (s : uuenv) (os : list uuop) : outcome unit uuenv :=
  match os with
  | [] => Ok s
  | o :: os => do s' <- uu_step s o; uu_run s' os
  end.
