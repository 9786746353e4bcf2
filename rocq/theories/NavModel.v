(** Model of class EnvironmentNAV2D, /repo/src/discrete_space_information/environment_nav2D.cpp.
    Coordinates and costs are unbounded integers (Z) except where the code hashes them (unsigned
    32 bit, modelled exactly).  File input (ReadConfiguration), printing, timing and the random
    neighbour generator are not modelled. Hash-entry pointers are their (X, Y, stateID) content: entries are never
    modified after creation (CreateNewHashEntry is the only writer). *)
From Verif Require Import Base.
Local Open Scope Z_scope.

(** environment_nav2D.cpp:61-72 inthash, on [unsigned int]. *)
Definition inthash (key : Z) : Z :=
  let key := u32 (key + u32 (Z.shiftl key 12)) in
  let key := Z.lxor key (Z.shiftr key 22) in
  let key := u32 (key + u32 (Z.shiftl key 4)) in
  let key := Z.lxor key (Z.shiftr key 9) in
  let key := u32 (key + u32 (Z.shiftl key 10)) in
  let key := Z.lxor key (Z.shiftr key 2) in
  let key := u32 (key + u32 (Z.shiftl key 7)) in
  Z.lxor key (Z.shiftr key 12).

(** environment_nav2D.cpp:77-80 GETHASHBIN with HashTableSize = 64*1024 (line 516). The int
    arguments are converted to unsigned int. *)
Definition HashTableSize : Z := 65536.
Definition GETHASHBIN (x y : Z) : Z :=
  Z.land (inthash (u32 (inthash (u32 x) + u32 (Z.shiftl (inthash (u32 y)) 1)))) (HashTableSize - 1).

(** environment_nav2D.cpp:272-396 Computedxy, the tables dx_, dy_, dxintersects_, dyintersects_:
    (dx, dy, (ix0, iy0), (ix1, iy1)) for dind = 0..15. *)
Definition dtable : list (Z * Z * (Z * Z) * (Z * Z)) :=
  [ (1, 1, (0, 1), (1, 0));
    (1, 0, (0, 0), (0, 0));
    (1, -1, (0, -1), (1, 0));
    (0, 1, (0, 0), (0, 0));
    (0, -1, (0, 0), (0, 0));
    (-1, 1, (0, 1), (-1, 0));
    (-1, 0, (0, 0), (0, 0));
    (-1, -1, (0, -1), (-1, 0));
    (2, 1, (1, 0), (1, 1));
    (1, 2, (0, 1), (1, 1));
    (-1, 2, (0, 1), (-1, 1));
    (-2, 1, (-1, 0), (-1, 1));
    (-2, -1, (-1, 0), (-1, -1));
    (-1, -2, (0, -1), (-1, -1));
    (1, -2, (0, -1), (1, -1));
    (2, -1, (1, 0), (1, -1)) ].

(** environment_nav2D.h:38 ENVNAV2D_COSTMULT. *)
Definition COSTMULT : Z := 1000.
(** environment_nav2D.cpp:385-396 dxy_distance_mm_ (ceil(1000*1.414) = 1414, ceil(1000*2.236) = 2236). *)
Definition dxy_distance_mm (aind : nat) (dx dy : Z) : Z :=
  if negb (dx =? 0) && negb (dy =? 0) then (if (aind <=? 7)%nat then 1414 else 2236) else COSTMULT.

(** environment_nav2D.h EnvNAV2DConfig_t and EnvironmentNAV2D_t; StateID2IndexMapping of the base
    class is represented by its size only (nMapping). Grid2D has exactly the allocated cells as keys. *)
Record nav := mkNav {
  nW : Z; nH : Z; nObs : Z; nDirs : nat;
  nStartC : Z * Z; nEndC : Z * Z;
  nGrid : gmap (Z * Z) Z;
  nTable : list (Z * Z);                 (* StateID2CoordTable *)
  nBins : gmap Z (list (Z * Z * nat));   (* Coord2StateIDHashTable *)
  nMapping : nat;
  nStart : nat; nGoal : nat; nInit : bool
}.
Notation nres A := (outcome nav A).

Definition with_tables (e : nav) t b m : nav :=
  mkNav (nW e) (nH e) (nObs e) (nDirs e) (nStartC e) (nEndC e) (nGrid e) t b m (nStart e) (nGoal e) (nInit e).

(** environment_nav2D.cpp:51-57 constructor (default threshold 1, .h:39). Coordinates of start and
    goal, the table pointers and the ids are uninitialised until InitializeEnv: any value. *)
Definition new_nav : nav := mkNav 0 0 1 8 (0, 0) (0, 0) ∅ [] ∅ 0 0 0 false.

(** environment_nav2D.cpp:1202-1223 SetEnvParameter("is16connected", value). *)
Definition SetEnvParameter16 (e : nav) (value : Z) : bool * nav :=
  if nInit e then (false, e)
  else (true, mkNav (nW e) (nH e) (nObs e) (if value =? 0 then 8%nat else 16%nat) (nStartC e) (nEndC e)
                    (nGrid e) (nTable e) (nBins e) (nMapping e) (nStart e) (nGoal e) (nInit e)).

(** environment_nav2D.cpp:404-438 GetHashEntry: linear search of the bin. *)
Fixpoint bin_search (b : list (Z * Z * nat)) (x y : Z) : option nat :=
  match b with
  | [] => None
  | en :: b => if (en.1.1 =? x) && (en.1.2 =? y) then Some en.2 else bin_search b x y
  end.
Definition GetHashEntry (e : nav) (x y : Z) : option nat :=
  bin_search (default [] (nBins e !! GETHASHBIN x y)) x y.

(** environment_nav2D.cpp:440-480 CreateNewHashEntry. *)
Definition CreateNewHashEntry (e : nav) (x y : Z) : nres (nat * nav) :=
  let id := length (nTable e) in
  let b := GETHASHBIN x y in
  let e' := with_tables e (nTable e ++ [(x, y)])
              (<[b := default [] (nBins e !! b) ++ [(x, y, id)]]> (nBins e)) (S (nMapping e)) in
  (* StateID2IndexMapping[stateID][i] = -1 : in range iff stateID < size *)
  if (id <? S (nMapping e))%nat then
    if (id =? S (nMapping e) - 1)%nat then Ok (id, e') else Exn e'
  else UB.

(** environment_nav2D.cpp:1046-1054 GetStateFromCoord (the same five lines occur inline at each
    place where a neighbour's id is needed). *)
Definition GetStateFromCoord (e : nav) (x y : Z) : nres (nat * nav) :=
  match GetHashEntry e x y with
  | Some id => Ok (id, e)
  | None => CreateNewHashEntry e x y
  end.

(** environment_nav2D.cpp:1039-1044 GetCoordFromState: vector operator[] out of range is undefined. *)
Definition GetCoordFromState (e : nav) (id : nat) : nres (Z * Z) :=
  match nTable e !! id with Some c => Ok c | None => UB end.

(** environment_nav2D.cpp:488-491 IsWithinMapCell. *)
Definition IsWithinMapCell (e : nav) (x y : Z) : bool :=
  (x >=? 0) && (x <? nW e) && (y >=? 0) && (y <? nH e).
(** Grid2D[x][y]. *)
Definition rdgrid (e : nav) (x y : Z) : nres Z :=
  match nGrid e !! (x, y) with Some c => Ok c | None => UB end.
(** environment_nav2D.cpp:482-486 IsValidCell (short-circuit && : the map is read only in range). *)
Definition IsValidCell (e : nav) (x y : Z) : nres bool :=
  if IsWithinMapCell e x y then do c <- rdgrid e x y; Ok (c <? nObs e) else Ok false.

(** environment_nav2D.cpp:106-146 SetConfiguration: [mapdata] is indexed by x + y*width, None = NULL. *)
Definition SetConfiguration (e : nav) (w h : Z) (mapdata : option (Z -> Z)) (sx sy gx gy : Z) (obs : Z) : nres nav :=
  let e0 := mkNav w h obs (nDirs e) (sx, sy) (nEndC e) (nGrid e) (nTable e) (nBins e) (nMapping e)
                  (nStart e) (nGoal e) (nInit e) in
  if (sx <? 0) || (sx >=? w) then Exn e0
  else if (sy <? 0) || (sy >=? h) then Exn e0
  else
    let cells := y ← (Z.of_nat <$> seq 0 (Z.to_nat h)); (fun x => (x, y)) <$> (Z.of_nat <$> seq 0 (Z.to_nat w)) in
    let g := list_to_map ((fun c : Z * Z => (c, match mapdata with None => 0 | Some m => m (c.1 + c.2 * w) end)) <$> cells) in
    Ok (mkNav w h obs (nDirs e) (sx, sy) (gx, gy) g (nTable e) (nBins e) (nMapping e)
              (nStart e) (nGoal e) (nInit e)).

(** environment_nav2D.cpp:511-535 InitializeEnvironment: fresh hash table, StateID2CoordTable cleared;
    StateID2IndexMapping is not cleared. *)
Definition InitializeEnvironment (e : nav) : nres nav :=
  let e := with_tables e [] ∅ (nMapping e) in
  do r <- GetStateFromCoord e (nStartC e).1 (nStartC e).2;
  let e := r.2 in let sid := r.1 in
  do r <- GetStateFromCoord e (nEndC e).1 (nEndC e).2;
  let e := r.2 in let gid := r.1 in
  Ok (mkNav (nW e) (nH e) (nObs e) (nDirs e) (nStartC e) (nEndC e) (nGrid e) (nTable e) (nBins e)
            (nMapping e) sid gid true).

(** environment_nav2D.cpp:678-691 InitializeEnv (the overload of 672-676 passes zeros), 693-705 InitGeneral. *)
Definition InitializeEnv (e : nav) (w h : Z) (mapdata : option (Z -> Z)) (sx sy gx gy : Z) (obs : Z) : nres nav :=
  do e1 <- SetConfiguration e w h mapdata sx sy gx gy obs;
  InitializeEnvironment e1.

(** environment_nav2D.cpp:1062-1084 SetGoal, 1091-1112 SetStart: -1 is None. IsValidCell is evaluated only for a warning. *)
Definition SetGoal (e : nav) (x y : Z) : nres (option nat * nav) :=
  if negb (IsWithinMapCell e x y) then Ok (None, e)
  else
    do _ <- IsValidCell e x y;
    do r <- GetStateFromCoord e x y;
    let e := r.2 in
    Ok (Some r.1, mkNav (nW e) (nH e) (nObs e) (nDirs e) (nStartC e) (x, y) (nGrid e) (nTable e) (nBins e)
                        (nMapping e) (nStart e) r.1 (nInit e)).
Definition SetStart (e : nav) (x y : Z) : nres (option nat * nav) :=
  if negb (IsWithinMapCell e x y) then Ok (None, e)
  else
    do _ <- IsValidCell e x y;
    do r <- GetStateFromCoord e x y;
    let e := r.2 in
    Ok (Some r.1, mkNav (nW e) (nH e) (nObs e) (nDirs e) (x, y) (nEndC e) (nGrid e) (nTable e) (nBins e)
                        (nMapping e) r.1 (nGoal e) (nInit e)).

(** environment_nav2D.cpp:1114-1119 UpdateCost: no bounds check; unsigned char newcost. *)
Definition UpdateCost (e : nav) (x y : Z) (newcost : Z) : nres nav :=
  match nGrid e !! (x, y) with
  | None => UB
  | Some _ => Ok (mkNav (nW e) (nH e) (nObs e) (nDirs e) (nStartC e) (nEndC e) (<[(x, y) := newcost]> (nGrid e))
                        (nTable e) (nBins e) (nMapping e) (nStart e) (nGoal e) (nInit e))
  end.

(** environment_nav2D.cpp:877-882 (and 953-958, 791-796): bTestBounds. *)
Definition bTestBounds (e : nav) (x y : Z) : bool :=
  (x <=? 1) || (x >=? nW e - 2) || (y <=? 1) || (y >=? nH e - 2).

(** environment_nav2D.cpp:892-907 (GetSuccs), 970-988 (GetPreds), 807-822 (SetAllActions...): the cells
    the action passes through, starting from [costmult]; X,Y is the given state's cell, newX,newY the neighbour's. *)
Definition through_cost (e : nav) (aind : nat) (d : Z * Z * (Z * Z) * (Z * Z)) (x y : Z) (costmult : Z) : nres Z :=
  let newX := x + d.1.1.1 in let newY := y + d.1.1.2 in
  if negb (newX =? x) && negb (newY =? y) && (aind <=? 7)%nat then
    do c1 <- rdgrid e x newY;
    let costmult := Z.max costmult c1 in
    do c2 <- rdgrid e newX y;
    Ok (Z.max costmult c2)
  else if (7 <? aind)%nat then
    do c1 <- rdgrid e (x + d.1.2.1) (y + d.1.2.2);
    let costmult := Z.max costmult c1 in
    do c2 <- rdgrid e (x + d.2.1) (y + d.2.2);
    Ok (Z.max costmult c2)
  else Ok costmult.

(** environment_nav2D.cpp:883-923: one round of the loop of GetSuccs; the accumulator holds SuccIDV, CostV as pairs. *)
Definition succ_step (x y : Z) (test : bool) (aind : nat) (d : Z * Z * (Z * Z) * (Z * Z))
    (st : nav * list (nat * Z)) : nres (nav * list (nat * Z)) :=
  let e := st.1 in
  let newX := x + d.1.1.1 in let newY := y + d.1.1.2 in
  do ok <- (if test then IsValidCell e newX newY else Ok true);
  if negb ok then Ok st
  else
    do c0 <- rdgrid e newX newY;
    do costmult <- through_cost e aind d x y c0;
    if costmult >=? nObs e then Ok st
    else
      let cost := (costmult + 1) * dxy_distance_mm aind d.1.1.1 d.1.1.2 in
      do r <- GetStateFromCoord e newX newY;
      Ok (r.2, st.2 ++ [(r.1, cost)]).
(** environment_nav2D.cpp:959-1005: one round of the loop of GetPreds. *)
Definition pred_step (target : Z) (x y : Z) (test : bool) (aind : nat) (d : Z * Z * (Z * Z) * (Z * Z))
    (st : nav * list (nat * Z)) : nres (nav * list (nat * Z)) :=
  let e := st.1 in
  let predX := x + d.1.1.1 in let predY := y + d.1.1.2 in
  do ok <- (if test then IsValidCell e predX predY else Ok true);
  if negb ok then Ok st
  else
    do costmult <- through_cost e aind d x y target;
    if costmult >=? nObs e then Ok st
    else
      let cost := (costmult + 1) * dxy_distance_mm aind d.1.1.1 d.1.1.2 in
      do r <- GetStateFromCoord e predX predY;
      Ok (r.2, st.2 ++ [(r.1, cost)]).

(** for (aind = 0; aind < numofdirs; aind++) *)
Fixpoint dir_loop (step : nat -> Z * Z * (Z * Z) * (Z * Z) -> nav * list (nat * Z) -> nres (nav * list (nat * Z)))
    (aind : nat) (ds : list (Z * Z * (Z * Z) * (Z * Z))) (st : nav * list (nat * Z)) : nres (nav * list (nat * Z)) :=
  match ds with
  | [] => Ok st
  | d :: ds => do st' <- step aind d st; dir_loop step (S aind) ds st'
  end.

(** environment_nav2D.cpp:856-928 GetSuccs. *)
Definition GetSuccs (e : nav) (id : nat) : nres (list (nat * Z) * nav) :=
  if (id =? nGoal e)%nat then Ok ([], e)
  else
    do c <- GetCoordFromState e id;
    do r <- dir_loop (succ_step c.1 c.2 (bTestBounds e c.1 c.2)) 0 (take (nDirs e) dtable) (e, []);
    Ok (r.2, r.1).

(** environment_nav2D.cpp:930-1010 GetPreds. *)
Definition GetPreds (e : nav) (id : nat) : nres (list (nat * Z) * nav) :=
  do c <- GetCoordFromState e id;
  do t <- rdgrid e c.1 c.2;
  if t >=? nObs e then Ok ([], e)
  else
    do r <- dir_loop (pred_step t c.1 c.2 (bTestBounds e c.1 c.2)) 0 (take (nDirs e) dtable) (e, []);
    Ok (r.2, r.1).

(** environment_nav2D.cpp:537-542 EuclideanDistance: (int)(1000*sqrt(sqdist)) computed exactly,
    i.e. floor(sqrt(1000000*sqdist)) (the double computation can differ only by rounding). *)
Definition EuclideanDistance (x1 y1 x2 y2 : Z) : Z :=
  let sqdist := (x1 - x2) * (x1 - x2) + (y1 - y2) * (y1 - y2) in
  Z.sqrt (COSTMULT * COSTMULT * sqdist).
(** environment_nav2D.cpp:716-734 GetFromToHeuristic; 736-750 GetGoalHeuristic; 752-767 GetStartHeuristic. *)
Definition GetFromToHeuristic (e : nav) (from to : nat) : nres Z :=
  do a <- GetCoordFromState e from;
  do b <- GetCoordFromState e to;
  Ok (EuclideanDistance a.1 a.2 b.1 b.2).
Definition GetGoalHeuristic (e : nav) (id : nat) : nres Z := GetFromToHeuristic e id (nGoal e).
Definition GetStartHeuristic (e : nav) (id : nat) : nres Z := GetFromToHeuristic e (nStart e) id.

(** environment_nav2D.cpp:1138-1156 GetPredsofChangedEdges; 1160-1176 GetSuccsofChangedEdges has the same text. *)
Fixpoint changed_dirs (cx cy : Z) (ds : list (Z * Z * (Z * Z) * (Z * Z))) (st : nav * list nat) : nres (nav * list nat) :=
  match ds with
  | [] => Ok st
  | d :: ds =>
    let affx := cx + d.1.1.1 in let affy := cy + d.1.1.2 in
    if (affx <? 0) || (affx >=? nW st.1) || (affy <? 0) || (affy >=? nH st.1)
    then changed_dirs cx cy ds st
    else do r <- GetStateFromCoord st.1 affx affy; changed_dirs cx cy ds (r.2, st.2 ++ [r.1])
  end.
Fixpoint changed_loop (cs : list (Z * Z)) (st : nav * list nat) : nres (nav * list nat) :=
  match cs with
  | [] => Ok st
  | c :: cs =>
    do r <- GetStateFromCoord st.1 c.1 c.2;
    do st' <- changed_dirs c.1 c.2 (take (nDirs r.2) dtable) (r.2, st.2 ++ [r.1]);
    changed_loop cs st'
  end.
Definition GetPredsofChangedEdges (e : nav) (cs : list (Z * Z)) : nres (list nat * nav) :=
  do r <- changed_loop cs (e, []); Ok (r.2, r.1).
Definition GetSuccsofChangedEdges (e : nav) (cs : list (Z * Z)) : nres (list nat * nav) :=
  do r <- changed_loop cs (e, []); Ok (r.2, r.1).

(** environment_nav2D.cpp:1226-1241 AreEquivalent. *)
Definition AreEquivalent (e : nav) (a b : nat) : nres bool :=
  do ca <- GetCoordFromState e a;
  do cb <- GetCoordFromState e b;
  Ok ((ca.1 =? cb.1) && (ca.2 =? cb.2)).

(** environment_nav2D.cpp:769-848 SetAllActionsandAllOutcomes on a state without actions: the list of (action id, outcome
    state id, cost); the loop body is the text of GetSuccs plus AddAction(aind)/AddOutcome. *)
Definition action_step (x y : Z) (test : bool) (aind : nat) (d : Z * Z * (Z * Z) * (Z * Z))
    (st : nav * list (nat * nat * Z)) : nres (nav * list (nat * nat * Z)) :=
  let e := st.1 in
  let newX := x + d.1.1.1 in let newY := y + d.1.1.2 in
  do ok <- (if test then IsValidCell e newX newY else Ok true);
  if negb ok then Ok st
  else
    do c0 <- rdgrid e newX newY;
    do costmult <- through_cost e aind d x y c0;
    if costmult >=? nObs e then Ok st
    else
      let cost := (costmult + 1) * dxy_distance_mm aind d.1.1.1 d.1.1.2 in
      do r <- GetStateFromCoord e newX newY;
      Ok (r.2, st.2 ++ [(aind, r.1, cost)]).
Fixpoint action_loop (x y : Z) (test : bool) (aind : nat) (ds : list (Z * Z * (Z * Z) * (Z * Z)))
    (st : nav * list (nat * nat * Z)) : nres (nav * list (nat * nat * Z)) :=
  match ds with
  | [] => Ok st
  | d :: ds => do st' <- action_step x y test aind d st; action_loop x y test (S aind) ds st'
  end.
Definition SetAllActionsandAllOutcomes (e : nav) (id : nat) : nres (list (nat * nat * Z) * nav) :=
  if (id =? nGoal e)%nat then Ok ([], e)
  else
    do c <- GetCoordFromState e id;
    do r <- action_loop c.1 c.2 (bTestBounds e c.1 c.2) 0 (take (nDirs e) dtable) (e, []);
    Ok (r.2, r.1).
