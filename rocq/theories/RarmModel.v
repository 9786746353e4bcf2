(** Model of class EnvironmentROBARM (planar robot arm),
    /repo/src/discrete_space_information/environment_robarm.cpp and environment_robarm.h.
    Simplified: the geometry of the links is a parameter (record [arm], field [a_joint]); int
    arithmetic is unbounded ([short unsigned int] and the [unsigned int] of the hash are exact);
    allocation never fails; reading the configuration file, printing and the unused code under
    ENDEFF_CHECK_ONLY and UNIFORM_COST==0 are left out.  An array is a finite map whose keys are the
    allocated and written cells: any other access is undefined behaviour. *)
From Verif Require Import Base BresModel.
Local Open Scope Z_scope.

(** environment_robarm.h:40 NUMOFLINKS. *)
Definition NUMOFLINKS : nat := 6.

(** A point of the plane as far as the code looks at it: the results of the tests x < 0,
    x >= EnvWidth_m, y < 0, y >= EnvHeight_m and the truncated quotients (int)(x/GridCellWidth),
    (int)(y/GridCellWidth) (environment_robarm.cpp:784-796, 811, 834-837). *)
Record point := mkPt { p_xneg : bool; p_xbig : bool; p_yneg : bool; p_ybig : bool; p_x : Z; p_y : Z }.

(** environment_robarm.h:72-92 ENV_ROBARM_CONFIG.  [a_joint c k] is the position of the end of the
    k-th link (k = 0 is the base) in configuration c, i.e. ComputeContAngles (742-749) and the
    floating-point sums at 806-809 and 905-914 (the same expressions, hence the same values). *)
Record arm := mkArm {
  a_w : Z; a_h : Z;
  a_grid : gmap (Z * Z) Z;          (* Grid2D *)
  a_gx : Z; a_gy : Z;               (* EndEffGoalX_c, EndEffGoalY_c *)
  a_vals : list Z;                  (* anglevals *)
  a_joint : list Z -> nat -> point;
  a_start : list Z }.               (* ComputeCoord of the start angles, lines 977-981 *)

(** * The 2D search *)
(** environment_robarm.h:64-70 STATE2D_t; x and y are [None] before they are written. *)
Record st2 := mkSt2 { s_g : Z; s_closed : Z; s_xy : option (Z * Z) }.

(** environment_robarm.cpp:53-55 dx, dy. *)
Definition rdirs : list (Z * Z) := [(1,1);(1,0);(1,-1);(0,1);(0,-1);(-1,1);(-1,0);(-1,-1)].

(** environment_robarm.cpp:51 XYTO2DIND. *)
Definition XYTO2DIND (w : Z) (x y : Z) : Z := x + y * w.

(** A counting loop (no code of its own). *)
Fixpoint ra_for {I St} (is : list I) (body : I -> St -> outcome unit St) (s : St) : outcome unit St :=
  match is with
  | [] => Ok s
  | i :: is => do s' <- body i s; ra_for is body s'
  end.

(** environment_robarm.cpp:345-357 Create2DStateSpace: rows of EnvHeight_c cells, filled up to
    EnvWidth_c (sic); a write past the end of the row is undefined.  The cells of a row that are
    not written hold arbitrary values of which only x and y matter ([None]). *)
Definition Create2DStateSpace (w h : Z) : outcome unit (gmap (Z * Z) st2) :=
  ra_for (seqZ 0 w) (fun x m =>
    let m := foldl (fun m y => <[(x, y) := mkSt2 0 0 None]> m) m (seqZ 0 h) in
    ra_for (seqZ 0 w) (fun y m =>
      if h <=? y then UB else Ok (<[(x, y) := mkSt2 INFINITECOST 0 (Some (u16 x, u16 y))]> m)) m) ∅.

Record srch := mkSrch { q_ss : gmap (Z * Z) st2; q_heur : gmap Z Z; q_queue : list (Z * Z) }.

(** environment_robarm.cpp:293-298 initialisation of all cells; the row HeurGrid has w*h ints
    (376-379: hsize = XYTO2DIND(w-1,h-1)+1). *)
Definition ra_reset (w h : Z) (s : gmap (Z * Z) st2 * gmap Z Z) : outcome unit (gmap (Z * Z) st2 * gmap Z Z) :=
  ra_for (seqZ 0 w) (fun x => ra_for (seqZ 0 h) (fun y s =>
    if (XYTO2DIND w x y <? 0) || (w * h <=? XYTO2DIND w x y) then UB
    else match s.1 !! (x, y) with
         | None => UB
         | Some c => Ok (<[(x, y) := mkSt2 INFINITECOST 0 (s_xy c)]> s.1, <[XYTO2DIND w x y := INFINITECOST]> s.2)
         end)) s.

(** environment_robarm.cpp:321-341 one round of the neighbour loop; [g] and [xy] are ExpState->g,
    ->x and ->y (not changed in the loop: a neighbour is never the cell itself). *)
Definition ra_relax (w h : Z) (grid : gmap (Z * Z) Z) (g : Z) (xy : Z * Z) (d : Z * Z) (s : srch) : outcome unit srch :=
  let nx := xy.1 + d.1 in
  let ny := xy.2 + d.2 in
  if (nx <? 0) || (w <=? nx) || (ny <? 0) || (h <=? ny) then Ok s
  else match grid !! (nx, ny) with
  | None => UB
  | Some o =>
    if o =? 1 then Ok s
    else match q_ss s !! (nx, ny) with
    | None => UB
    | Some c =>
      if negb (s_g c =? INFINITECOST) && (g + 1 <? s_g c) then Exn tt
      else if (s_closed c =? 0) && (s_g c =? INFINITECOST)
           then Ok (mkSrch (<[(nx, ny) := mkSt2 (g + 1) (s_closed c) (s_xy c)]> (q_ss s)) (q_heur s)
                           (q_queue s ++ [(nx, ny)]))
           else Ok s
    end
  end.

(** environment_robarm.cpp:304-342 the main loop; a pointer into the state space is the pair of its
    two array indices. *)
Fixpoint ra_bfs (fuel : nat) (w h : Z) (grid : gmap (Z * Z) Z) (s : srch) : outcome unit srch :=
  match fuel with
  | O => OOF
  | S fuel =>
    match q_queue s with
    | [] => Ok s
    | p :: q =>
      match q_ss s !! p with
      | None => UB
      | Some c =>
        if s_closed c =? 1 then ra_bfs fuel w h grid (mkSrch (q_ss s) (q_heur s) q)
        else match s_xy c with
        | None => UB
        | Some xy =>
          let i := XYTO2DIND w xy.1 xy.2 in
          if (i <? 0) || (w * h <=? i) then UB
          else
            do s' <- ra_for rdirs (ra_relax w h grid (s_g c) xy)
                       (mkSrch (<[p := mkSt2 (s_g c) 1 (s_xy c)]> (q_ss s)) (<[i := s_g c]> (q_heur s)) q);
            ra_bfs fuel w h grid s'
        end
      end
    end
  end.

(** environment_robarm.cpp:285-343 Search2DwithQueue. *)
Definition Search2DwithQueue (w h : Z) (grid : gmap (Z * Z) Z) (sx sy : Z) (ss : gmap (Z * Z) st2) :
    outcome unit (gmap (Z * Z) st2 * gmap Z Z) :=
  do s <- ra_reset w h (ss, ∅);
  match s.1 !! (sx, sy) with
  | None => UB
  | Some c =>
    do r <- ra_bfs (Z.to_nat (w * h) + 1) w h grid
              (mkSrch (<[(sx, sy) := mkSt2 0 (s_closed c) (s_xy c)]> s.1) s.2 [(sx, sy)]);
    Ok (q_ss r, q_heur r)
  end.

(** environment_robarm.cpp:370-400 ComputeHeuristicValues; Heur is a map from the row index to the row. *)
Definition ComputeHeuristicValues (w h : Z) (grid : gmap (Z * Z) Z) : outcome unit (gmap Z (gmap Z Z)) :=
  do ss <- Create2DStateSpace w h;
  do r <- ra_for (seqZ 0 w) (fun x => ra_for (seqZ 0 h) (fun y s =>
            do r <- Search2DwithQueue w h grid x y s.1;
            Ok (r.1, <[XYTO2DIND w x y := r.2]> s.2))) (ss, ∅);
  Ok r.2.

(** * Configurations of the arm *)
(** environment_robarm.cpp:784-796 ContXY2Cell. *)
Definition ContXY2Cell (a : arm) (p : point) : Z * Z :=
  let px := if p_xneg p then 0 else u16 (p_x p) in
  let py := if p_yneg p then 0 else u16 (p_y p) in
  (if a_w a <=? px then u16 (a_w a - 1) else px, if a_h a <=? py then u16 (a_h a - 1) else py).

(** environment_robarm.cpp:798-819 ComputeEndEffectorPos, the cell (its return value is not used by
    the modelled callers). *)
Definition EndEffector (a : arm) (c : list Z) : Z * Z := ContXY2Cell a (a_joint a c NUMOFLINKS).

(** environment_robarm.cpp:823-865 IsValidLineSegment with pTestedCells == NULL. *)
Fixpoint ra_line_free (grid : gmap (Z * Z) Z) (l : list (Z * Z)) : outcome unit bool :=
  match l with
  | [] => Ok true
  | p :: l => match grid !! p with
              | None => UB
              | Some o => if o =? 1 then Ok false else ra_line_free grid l
              end
  end.
Definition pt_outside (p : point) : bool := p_xneg p || p_xbig p || p_yneg p || p_ybig p.
Definition IsValidLineSegment (a : arm) (p q : point) : outcome unit bool :=
  if pt_outside p || pt_outside q then Ok false
  else
    let c := ContXY2Cell a p in
    let d := ContXY2Cell a q in
    match bresenham_line c.1 c.2 d.1 d.2 with
    | None => OOF
    | Some l => ra_line_free (a_grid a) l
    end.

(** environment_robarm.cpp:867-931 IsValidCoord with the default arguments. *)
Fixpoint ra_links (a : arm) (c : list Z) (ks : list nat) : outcome unit bool :=
  match ks with
  | [] => Ok true
  | k :: ks => do b <- IsValidLineSegment a (a_joint a c k) (a_joint a c (S k));
               if b then ra_links a c ks else Ok false
  end.
Definition IsValidCoord (a : arm) (c : list Z) : outcome unit bool := ra_links a c (seq 0 NUMOFLINKS).

(** environment_robarm.cpp:933-955 cost with UNIFORM_COST. *)
Definition ra_cost (a : arm) (c1 c2 : list Z) : outcome unit Z :=
  do b1 <- IsValidCoord a c1;
  if b1 then do b2 <- IsValidCoord a c2; if b2 then Ok 1 else Ok INFINITECOST
  else Ok INFINITECOST.

(** * The tables *)
(** environment_robarm.cpp:59-70 inthash. *)
Definition ra_inthash (key : Z) : Z :=
  let key := u32 (key + u32 (Z.shiftl key 12)) in
  let key := Z.lxor key (Z.shiftr key 22) in
  let key := u32 (key + u32 (Z.shiftl key 4)) in
  let key := Z.lxor key (Z.shiftr key 9) in
  let key := u32 (key + u32 (Z.shiftl key 10)) in
  let key := Z.lxor key (Z.shiftr key 2) in
  let key := u32 (key + u32 (Z.shiftl key 7)) in
  Z.lxor key (Z.shiftr key 12).
(** environment_robarm.cpp:75-84 GETHASHBIN with HashTableSize = 32*1024 (line 971). *)
Fixpoint ra_hashsum (c : list Z) (i : Z) : Z :=
  match c with
  | [] => 0
  | v :: c => u32 (u32 (Z.shiftl (ra_inthash v) i) + ra_hashsum c (i + 1))
  end.
Definition ra_HASHSIZE : Z := 32768.
Definition ra_GETHASHBIN (c : list Z) : Z := Z.land (ra_inthash (ra_hashsum c 0)) (ra_HASHSIZE - 1).

(** environment_robarm.h:94-101 ENVROBARMHASHENTRY. *)
Record hent := mkHent { e_id : Z; e_coord : list Z; e_eff : Z * Z }.

(** environment_robarm.h:103-117 EnvironmentROBARM_t.  A pointer to an entry is its index in
    StateID2CoordTable (entries are never moved, changed or deleted); [r_map] is the size of
    StateID2IndexMapping of the base class, whose contents are not modelled. *)
Record robarm := mkRob {
  r_tab : list hent; r_bins : gmap Z (list nat); r_map : nat;
  r_start : nat; r_goal : nat; r_heur : gmap Z (gmap Z Z) }.
(** A new object (no code of its own). *)
Definition new_robarm : robarm := mkRob [] ∅ 0 0 0 ∅.

(** environment_robarm.cpp:110-146 GetHashEntry, the search in one bin. *)
Fixpoint ra_find (tab : list hent) (c : list Z) (bin : list nat) : outcome unit (option nat) :=
  match bin with
  | [] => Ok None
  | p :: bin => match tab !! p with
                | None => UB
                | Some e => if decide (e_coord e = c) then Ok (Some p) else ra_find tab c bin
                end
  end.
Definition ra_GetHashEntry (s : robarm) (c : list Z) (isgoal : bool) : outcome unit (option nat) :=
  if isgoal then Ok (Some (r_goal s))
  else ra_find (r_tab s) c (default [] (r_bins s !! ra_GETHASHBIN c)).

(** environment_robarm.cpp:148-188 CreateNewHashEntry; at an exception the caller sees the changed
    tables. *)
Definition ra_Create (s : robarm) (c : list Z) (eff : Z * Z) : outcome robarm (nat * robarm) :=
  let p := length (r_tab s) in
  let b := ra_GETHASHBIN c in
  let s' := mkRob (r_tab s ++ [mkHent (Z.of_nat p) c eff])
                  (<[b := default [] (r_bins s !! b) ++ [p]]> (r_bins s))
                  (S (r_map s)) (r_start s) (r_goal s) (r_heur s) in
  if (p <? S (r_map s))%nat
  then if (p =? r_map s)%nat then Ok (p, s') else Exn s'
  else UB.

(** Runs a part that does not change the object (no code of its own). *)
Definition ra_lift {A} (s : robarm) (x : outcome unit A) : outcome robarm A :=
  match x with Ok a => Ok a | Exn _ => Exn s | UB => UB | OOF => OOF end.

(** environment_robarm.cpp:1016-1037 InitializeEnv after the file was read, with 963-1009
    InitializeEnvironment: the tables are cleared (967-974; the mapping is not), then the start and
    the goal entry are made. The result is the returned bool. *)
Definition ra_Init (a : arm) (s0 : robarm) : outcome robarm (bool * robarm) :=
  let s := mkRob [] ∅ (r_map s0) (r_start s0) (r_goal s0) (r_heur s0) in
  do r1 <- ra_Create s (a_start a) (EndEffector a (a_start a));
  let s1 := mkRob (r_tab r1.2) (r_bins r1.2) (r_map r1.2) r1.1 (r_goal r1.2) (r_heur r1.2) in
  do r2 <- ra_Create s1 (replicate NUMOFLINKS 0) (a_gx a, a_gy a);
  let s2 := mkRob (r_tab r2.2) (r_bins r2.2) (r_map r2.2) (r_start r2.2) r2.1 (r_heur r2.2) in
  do v <- ra_lift s2 (IsValidCoord a (a_start a));
  if negb v || (a_w a <=? a_gx a) || (a_h a <=? a_gy a) then Ok (false, s2)
  else
    do h <- ra_lift s2 (ComputeHeuristicValues (a_w a) (a_h a) (a_grid a));
    Ok (true, mkRob (r_tab s2) (r_bins s2) (r_map s2) (r_start s2) (r_goal s2) h).

(** environment_robarm.cpp:1251-1261 the coordinate of one joint after a step [inc] of -1 or 1. *)
Definition ra_step (n v inc : Z) : Z :=
  if inc =? -1 then if v =? 0 then u16 (n - 1) else u16 (v + inc)
  else u16 (Z.rem (v + inc) n).

(** environment_robarm.cpp:1263-1293 one successor. *)
Definition ra_succ1 (a : arm) (src : hent) (ci : nat * Z) (st : robarm * list Z * list Z) : outcome robarm (robarm * list Z * list Z) :=
  let '(s, ids, costs) := st in
  match a_vals a !! ci.1, e_coord src !! ci.1 with
  | Some n, Some v =>
    if n =? 0 then UB
    else
      let c := <[ci.1 := ra_step n v ci.2]> (e_coord src) in
      do b <- ra_lift s (IsValidCoord a c);
      if negb b then Ok st
      else
        let near := (Z.abs ((e_eff src).1 - a_gx a) <? 3) || (Z.abs ((e_eff src).2 - a_gy a) <? 3) in
        let isgoal := near && ((EndEffector a c).1 =? a_gx a) && ((EndEffector a c).2 =? a_gy a) in
        do o <- ra_lift s (ra_GetHashEntry s c isgoal);
        do r <- match o with
                | Some p => Ok (p, s)
                | None => ra_Create s c (EndEffector a c)
                end;
        match r_tab r.2 !! r.1 with
        | None => UB
        | Some e => do k <- ra_lift r.2 (ra_cost a (e_coord src) c);
                    Ok (r.2, ids ++ [e_id e], costs ++ [k])
        end
  | _, _ => UB
  end.

(** The same loop as [ra_for], for bodies that change the object (no code of its own). *)
Fixpoint ra_iter {I St} (is : list I) (body : I -> St -> outcome robarm St) (s : St) : outcome robarm St :=
  match is with
  | [] => Ok s
  | i :: is => do s' <- body i s; ra_iter is body s'
  end.
(** environment_robarm.cpp:1247-1250 the joints and the two directions in loop order. *)
Definition ra_moves : list (nat * Z) := i ← seq 0 NUMOFLINKS; [(i, -1); (i, 1)].

(** environment_robarm.cpp:1228-1298 GetSuccs; the vectors are returned. *)
Definition ra_GetSuccs (a : arm) (s : robarm) (id : Z) : outcome robarm (robarm * list Z * list Z) :=
  match r_tab s !! r_goal s with
  | None => UB
  | Some ge =>
    if id =? e_id ge then Ok (s, [], [])
    else if id <? 0 then UB
    else match r_tab s !! Z.to_nat id with
         | None => UB
         | Some e => ra_iter ra_moves (ra_succ1 a e) (s, [], [])
         end
  end.

(** environment_robarm.cpp:1048-1083 GetFromToHeuristic. *)
Definition ra_GetFromToHeuristic (a : arm) (s : robarm) (from to_ : Z) : outcome robarm Z :=
  if (from <? 0) || (to_ <? 0) then UB
  else match r_tab s !! Z.to_nat from, r_tab s !! Z.to_nat to_ with
  | Some f, Some t =>
    match r_heur s !! XYTO2DIND (a_w a) (e_eff t).1 (e_eff t).2 with
    | None => UB
    | Some row => match row !! XYTO2DIND (a_w a) (e_eff f).1 (e_eff f).2 with
                  | None => UB | Some v => Ok v end
    end
  | _, _ => UB
  end.
(** environment_robarm.cpp:1085-1100 GetGoalHeuristic. *)
Definition ra_GetGoalHeuristic (a : arm) (s : robarm) (id : Z) : outcome robarm Z :=
  match r_tab s !! r_goal s with
  | None => UB
  | Some ge => ra_GetFromToHeuristic a s id (e_id ge)
  end.
(** environment_robarm.cpp:1425-1441 GetEdgeCost. *)
Definition ra_GetEdgeCost (a : arm) (s : robarm) (from to_ : Z) : outcome robarm Z :=
  if (from <? 0) || (to_ <? 0) then UB
  else match r_tab s !! Z.to_nat from, r_tab s !! Z.to_nat to_ with
  | Some f, Some t => ra_lift s (ra_cost a (e_coord f) (e_coord t))
  | _, _ => UB
  end.

(** environment_robarm.cpp:1388-1400 and 1511-1530 the state of a sampled configuration. *)
Definition ra_sample (a : arm) (s : robarm) (c : list Z) : outcome robarm (nat * robarm) :=
  let isgoal := ((EndEffector a c).1 =? a_gx a) && ((EndEffector a c).2 =? a_gy a) in
  do o <- ra_lift s (ra_GetHashEntry s c isgoal);
  match o with
  | Some p => Ok (p, s)
  | None => ra_Create s c (EndEffector a c)
  end.

(** environment_robarm.cpp:1442-1532 GetRandomState; [draws] are the configurations picked by rand(),
    in order (running out of them is [OOF]). *)
Fixpoint ra_GetRandomState (a : arm) (s : robarm) (draws : list (list Z)) : outcome robarm (Z * robarm) :=
  match draws with
  | [] => OOF
  | c :: draws =>
    do b <- ra_lift s (IsValidCoord a c);
    if negb b then ra_GetRandomState a s draws
    else do r <- ra_sample a s c;
         match r_tab r.2 !! r.1 with None => UB | Some e => Ok (e_id e, r.2) end
  end.

(** environment_robarm.h:44 ROBARM_LONGACTIONDIST_CELLS. *)
Definition ra_LONG : Z := 30.
(** environment_robarm.cpp:1376-1408 one random successor; [c] is the configuration picked by the
    lines 1330-1374 (any configuration here). *)
Definition ra_rsucc1 (a : arm) (src : hent) (c : list Z) (st : robarm * list Z * list Z) : outcome robarm (robarm * list Z * list Z) :=
  let '(s, ids, lows) := st in
  do b <- ra_lift s (IsValidCoord a c);
  if negb b then Ok st
  else if (ra_LONG <? Z.abs ((e_eff src).1 - (EndEffector a c).1)) || (ra_LONG <? Z.abs ((e_eff src).2 - (EndEffector a c).2)) then Ok st
  else
    do r <- ra_sample a s c;
    match r_tab r.2 !! r.1 with
    | None => UB
    | Some e => do h <- ra_GetFromToHeuristic a r.2 (e_id src) (e_id e);
                Ok (r.2, ids ++ [e_id e], lows ++ [h])
    end.
(** environment_robarm.cpp:1304-1423 GetRandomSuccsatDistance; [draws] are the (10) picked configurations. *)
Definition ra_GetRandomSuccs (a : arm) (s : robarm) (id : Z) (draws : list (list Z)) : outcome robarm (robarm * list Z * list Z) :=
  match r_tab s !! r_goal s with
  | None => UB
  | Some ge =>
    if id =? e_id ge then Ok (s, [], [])
    else if id <? 0 then UB
    else match r_tab s !! Z.to_nat id with
         | None => UB
         | Some e =>
           do r <- ra_iter draws (ra_rsucc1 a e) (s, [], []);
           let '(s', ids, lows) := r in
           if (Z.abs (a_gx a - (e_eff e).1) <=? ra_LONG) && (Z.abs (a_gy a - (e_eff e).2) <=? ra_LONG) then
             do h <- ra_GetFromToHeuristic a s' (e_id e) (e_id ge);
             Ok (s', ids ++ [e_id ge], lows ++ [h])
           else Ok (s', ids, lows)
         end
  end.
