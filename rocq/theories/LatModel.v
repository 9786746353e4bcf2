(** Model of EnvironmentNAVXYTHETALATTICE / EnvironmentNAVXYTHETALAT, /repo/src/discrete_space_information/environment_navxythetalat.cpp and
    /repo/src/include/sbpl/discrete_space_information/environment_navxythetalat.h: the (x, y, theta) lattice.
    Poses are discrete: the conversions from metres and radians are in AngleModel.v, the footprint cells in FootprintProofs.v.  [char] is signed and
    has 8 bits, [int] and [unsigned int] have 32.  A pointer to an action is its place (tind, aind) in ActionsV.
    Simplifications: printing, timing, the counter [checks], file input and the coordinates' int overflow are left out. *)
From Verif Require Import Base NavModel.
Local Open Scope Z_scope.

(** Conversions to char, unsigned char and int. *)
Definition schar (z : Z) : Z := (z + 128) mod 256 - 128.
Definition uchar (z : Z) : Z := z mod 256.
Definition toi32 (z : Z) : Z := (z + 2147483648) mod 4294967296 - 2147483648.

(** environment_navxythetalat.h:67-83 EnvNAVXYTHETALATAction_t (intermptV, motprimID, turning_radius are not used by the functions below). *)
Record action := mkAct {
  aInd : Z; aStart : Z; aDX : Z; aDY : Z; aEnd : Z;
  aCost : Z;
  aInterm : list (Z * Z);      (* interm3DcellsV *)
  aInter : list (Z * Z)        (* intersectingcellsV *)
}.
(** The constant part of EnvNAVXYTHETALATConfig_t, environment_navxythetalat.h:118-187.  An action that was allocated but never filled is None. *)
Record cfg := mkCfg {
  cW : Z; cH : Z; cN : Z;                    (* EnvWidth_c, EnvHeight_c, NumThetaDirs *)
  cNonUni : bool;                            (* bUseNonUniformAngles *)
  cObs : Z; cInsc : Z; cCirc : Z;            (* obsthresh, cost_inscribed_thresh, cost_possibly_circumscribed_thresh *)
  cPoly : bool;                              (* FootprintPolygon.size() > 1 *)
  cActs : list (list (option action));       (* ActionsV *)
  cWidth : nat;                              (* actionwidth *)
  cPreds : list (list (nat * nat));          (* PredActionsV *)
  cAffected : list (Z * Z * Z)               (* affectedpredstatesV: x, y, theta *)
}.
(** environment_navxythetalat.h:85-92 EnvNAVXYTHETALATHashEntry_t (stateID is the place in the table). *)
Record entry := mkEnt { eX : Z; eY : Z; eT : Z; eIter : Z }.
Record lat := mkLat {
  lC : cfg;
  lGrid : gmap (Z * Z) Z;                    (* Grid2D: the allocated cells *)
  lTab : list entry;                         (* StateID2CoordTable *)
  lMapping : nat;                            (* size of StateID2IndexMapping *)
  lHash : bool;                              (* hash table (true) or lookup table (false) *)
  lLook : gmap Z nat;                        (* Coord2StateIDHashTable_lookup, of maxsize entries; absent: NULL *)
  lBins : gmap Z (list nat);                 (* Coord2StateIDHashTable *)
  lStartC : Z * Z * Z; lGoalC : Z * Z * Z;   (* StartX_c.., EndX_c.. *)
  lStart : nat; lGoal : nat;                 (* startstateid, goalstateid *)
  lIter : Z;                                 (* iteration *)
  lNeedS : bool; lNeedG : bool               (* bNeedtoRecomputeStartHeuristics, bNeedtoRecomputeGoalHeuristics *)
}.
Notation lres A := (outcome unit A).
Definition with_tab (e : lat) (t : list entry) (m : nat) (lk : gmap Z nat) (b : gmap Z (list nat)) : lat :=
  mkLat (lC e) (lGrid e) t m (lHash e) lk b (lStartC e) (lGoalC e) (lStart e) (lGoal e) (lIter e) (lNeedS e) (lNeedG e).
Definition set_tab (e : lat) (t : list entry) : lat := with_tab e t (lMapping e) (lLook e) (lBins e).

(** environment_navxythetalat.cpp:48 XYTHETA2INDEX, 3015 maxsize. *)
Definition xytindex (c : cfg) (x y t : Z) : Z := t + x * cN c + y * cW c * cN c.
Definition maxsize (c : cfg) : Z := cW c * cH c * cN c.
(** environment_navxythetalat.cpp:3082-3088 GETHASHBIN, HashTableSize = 4 * 1024 * 1024 (3035). *)
Definition lhashbin (x y t : Z) : Z :=
  Z.land (inthash (u32 (u32 (inthash (u32 x) + u32 (Z.shiftl (inthash (u32 y)) 1)) + u32 (Z.shiftl (inthash (u32 t)) 2)))) (4194304 - 1).

(** environment_navxythetalat.cpp:2615-2627 GetHashEntry_lookup, 2629-2666 GetHashEntry_hash. *)
Fixpoint lbin_search (e : lat) (b : list nat) (x y t : Z) : lres (option nat) :=
  match b with
  | [] => Ok None
  | id :: b => match lTab e !! id with
               | None => UB
               | Some en => if (eX en =? x) && (eY en =? y) && (eT en =? t) then Ok (Some id) else lbin_search e b x y t
               end
  end.
Definition inrange (c : cfg) (x y t : Z) : bool :=
  negb ((x <? 0) || (x >=? cW c) || (y <? 0) || (y >=? cH c) || (t <? 0) || (t >=? cN c)).
Definition lGet (e : lat) (x y t : Z) : lres (option nat) :=
  if lHash e then lbin_search e (default [] (lBins e !! lhashbin x y t)) x y t
  else if negb (inrange (lC e) x y t) then Ok None
  else Ok (lLook e !! xytindex (lC e) x y t).

(** environment_navxythetalat.cpp:2668-2712 CreateNewHashEntry_lookup, 2714-2756 CreateNewHashEntry_hash. *)
Definition lCreate (e : lat) (x y t : Z) : lres (nat * lat) :=
  let id := length (lTab e) in
  let tab := lTab e ++ [mkEnt x y (schar t) 0] in
  let i := xytindex (lC e) x y t in
  do e <- (if lHash e then
             let b := lhashbin x y (schar t) in
             Ok (with_tab e tab (S (lMapping e)) (lLook e) (<[b := default [] (lBins e !! b) ++ [id]]> (lBins e)))
           else if (i <? 0) || (i >=? maxsize (lC e)) then UB
           else Ok (with_tab e tab (S (lMapping e)) (<[i := id]> (lLook e)) (lBins e)));
  (* StateID2IndexMapping[stateID][i] = -1, then the check *)
  if (id <? lMapping e)%nat then (if (id =? lMapping e - 1)%nat then Ok (id, e) else Exn ()) else UB.
(** environment_navxythetalat.cpp:2347-2355 GetStateFromCoord (and the same lines wherever an id is needed). *)
Definition lState (e : lat) (x y t : Z) : lres (nat * lat) :=
  do r <- lGet e x y t;
  match r with Some id => Ok (id, e) | None => lCreate e x y t end.
(** environment_navxythetalat.cpp:2338-2345 GetCoordFromState. *)
Definition lCoord (e : lat) (id : nat) : lres entry := match lTab e !! id with Some en => Ok en | None => UB end.

(** environment_navxythetalat.cpp:509-523 normalizeDiscAngle, utils.h:47-49. *)
Definition normtheta (c : cfg) (t : Z) : lres Z :=
  if cNonUni c then let t := if t <? 0 then t + cN c else t in Ok (if t >=? cN c then t - cN c else t)
  else if cN c =? 0 then UB
  else Ok (if t >=? 0 then Z.rem t (cN c) else Z.rem (Z.rem t (cN c) + cN c) (cN c)).

(** Grid2D[x][y]. *)
Definition lrd (e : lat) (x y : Z) : lres Z := match lGrid e !! (x, y) with Some v => Ok v | None => UB end.
(** environment_navxythetalat.cpp:1494-1505 IsValidCell, IsWithinMapCell. *)
Definition lWithin (e : lat) (x y : Z) : bool := (x >=? 0) && (x <? cW (lC e)) && (y >=? 0) && (y <? cH (lC e)).
Definition lValid (e : lat) (x y : Z) : lres bool := if lWithin e x y then do v <- lrd e x y; Ok (v <? cObs (lC e)) else Ok false.

(** environment_navxythetalat.cpp:1568-1585: the centre cells; None: return INFINITECOST. *)
Fixpoint centres (e : lat) (sx sy : Z) (l : list (Z * Z)) (m : Z) : lres (option Z) :=
  match l with
  | [] => Ok (Some m)
  | c :: l =>
    let x := c.1 + sx in let y := c.2 + sy in
    if (x <? 0) || (x >=? cW (lC e)) || (y <? 0) || (y >=? cH (lC e)) then Ok None
    else do v <- lrd e x y; let m := Z.max m v in if m >=? cInsc (lC e) then Ok None else centres e sx sy l m
  end.
(** environment_navxythetalat.cpp:1594-1605: the cells of the footprint. *)
Fixpoint all_valid (e : lat) (sx sy : Z) (l : list (Z * Z)) : lres bool :=
  match l with
  | [] => Ok true
  | c :: l => do b <- lValid e (c.1 + sx) (c.2 + sy); if (b : bool) then all_valid e sx sy l else Ok false
  end.
(** environment_navxythetalat.cpp:1540-1619 GetActionCost.  The product is computed in unsigned int and returned as int. *)
Definition lCost (e : lat) (sx sy : Z) (a : action) : lres Z :=
  let c := lC e in
  do v0 <- lValid e sx sy;
  if negb v0 then Ok INFINITECOST
  else
    do v1 <- lValid e (sx + aDX a) (sy + aDY a);
    if negb v1 then Ok INFINITECOST
    else
      do ge <- lrd e (sx + aDX a) (sy + aDY a);
      if ge >=? cInsc c then Ok INFINITECOST
      else
        do m <- centres e sx sy (aInterm a) 0;
        match m with
        | None => Ok INFINITECOST
        | Some m =>
          do ok <- (if cPoly c && (m >=? cCirc c) then all_valid e sx sy (aInter a) else Ok true);
          if negb ok then Ok INFINITECOST
          else
            do gs <- lrd e sx sy;
            Ok (toi32 (u32 (aCost a * (Z.max (Z.max m gs) ge + 1))))
        end.

(** &ActionsV[(unsigned int)Theta][aind]. *)
Definition act_at (c : cfg) (t : Z) (i : nat) : lres action :=
  if t <? 0 then UB else match cActs c !! Z.to_nat t with
                         | None => UB
                         | Some row => match row !! i with Some (Some a) => Ok a | _ => UB end
                         end.
(** environment_navxythetalat.cpp:2758-2820 GetSuccs: ids, costs and (through the last vector) the actions. *)
Fixpoint succs_loop (e : lat) (en : entry) (is : list nat) : lres (list (nat * Z * (nat * nat)) * lat) :=
  match is with
  | [] => Ok ([], e)
  | i :: is =>
    do a <- act_at (lC e) (eT en) i;
    let x := eX en + aDX a in let y := eY en + aDY a in
    do t <- normtheta (lC e) (aEnd a);
    do v <- lValid e x y;
    if negb v then succs_loop e en is
    else
      do cost <- lCost e (eX en) (eY en) a;
      if cost >=? INFINITECOST then succs_loop e en is
      else
        do r <- lState e x y t;
        do rest <- succs_loop r.2 en is;
        Ok ((r.1, cost, (Z.to_nat (eT en), i)) :: rest.1, rest.2)
  end.
Definition lSuccs (e : lat) (id : nat) : lres (list (nat * Z * (nat * nat)) * lat) :=
  if (id =? lGoal e)%nat then Ok ([], e)
  else do en <- lCoord e id; succs_loop e en (seq 0 (cWidth (lC e))).

(** environment_navxythetalat.cpp:2822-2881 GetPreds. *)
Definition preds_at (c : cfg) (t : Z) : lres (list (nat * nat)) :=
  if t <? 0 then UB else match cPreds c !! Z.to_nat t with Some l => Ok l | None => UB end.
Fixpoint preds_loop (e : lat) (en : entry) (ps : list (nat * nat)) : lres (list (nat * Z) * lat) :=
  match ps with
  | [] => Ok ([], e)
  | p :: ps =>
    do a <- act_at (lC e) (Z.of_nat p.1) p.2;
    let x := eX en - aDX a in let y := eY en - aDY a in let t := aStart a in
    do v <- lValid e x y;
    if negb v then preds_loop e en ps
    else
      do cost <- lCost e x y a;
      if cost >=? INFINITECOST then preds_loop e en ps
      else
        do r <- lState e x y t;
        do rest <- preds_loop r.2 en ps;
        Ok ((r.1, cost) :: rest.1, rest.2)
  end.
Definition lPreds (e : lat) (id : nat) : lres (list (nat * Z) * lat) :=
  do en <- lCoord e id; do ps <- preds_at (lC e) (eT en); preds_loop e en ps.

(** environment_navxythetalat.cpp:3203-3282 GetLazySuccs with actionV = NULL (the way planners call it).  isTrueCost is not cleared: [false] is
    appended to it for every successor. *)
Fixpoint lazy_loop (e : lat) (en : entry) (is : list nat) : lres (list (nat * Z) * lat) :=
  match is with
  | [] => Ok ([], e)
  | i :: is =>
    do a <- act_at (lC e) (eT en) i;
    let x := eX en + aDX a in let y := eY en + aDY a in
    do t <- normtheta (lC e) (aEnd a);
    do v <- lValid e x y;
    if negb v then lazy_loop e en is
    else
      do r <- lState e x y t;
      do rest <- lazy_loop r.2 en is;
      Ok ((r.1, toi32 (aCost a)) :: rest.1, rest.2)
  end.
Definition lLazySuccs (e : lat) (id : nat) (istrue : list bool) : lres (list (nat * Z) * list bool * lat) :=
  if (id =? lGoal e)%nat then Ok ([], istrue, e)
  else do en <- lCoord e id; do r <- lazy_loop e en (seq 0 (cWidth (lC e))); Ok (r.1, istrue ++ map (fun _ => false) r.1, r.2).
(** environment_navxythetalat.cpp:3344-3393 GetLazyPreds. *)
Fixpoint lazyp_loop (e : lat) (en : entry) (ps : list (nat * nat)) : lres (list (nat * Z) * lat) :=
  match ps with
  | [] => Ok ([], e)
  | p :: ps =>
    do a <- act_at (lC e) (Z.of_nat p.1) p.2;
    let x := eX en - aDX a in let y := eY en - aDY a in let t := aStart a in
    do v <- lValid e x y;
    if negb v then lazyp_loop e en ps
    else
      do r <- lState e x y t;
      do rest <- lazyp_loop r.2 en ps;
      Ok ((r.1, toi32 (aCost a)) :: rest.1, rest.2)
  end.
Definition lLazyPreds (e : lat) (id : nat) (istrue : list bool) : lres (list (nat * Z) * list bool * lat) :=
  do en <- lCoord e id; do ps <- preds_at (lC e) (eT en); do r <- lazyp_loop e en ps; Ok (r.1, istrue ++ map (fun _ => false) r.1, r.2).
(** environment_navxythetalat.cpp:3284-3318 GetTrueCost. *)
Fixpoint truecost_loop (e : lat) (en : entry) (child : nat) (is : list nat) : lres Z :=
  match is with
  | [] => Exn ()
  | i :: is =>
    do a <- act_at (lC e) (eT en) i;
    let x := eX en + aDX a in let y := eY en + aDY a in
    do t <- normtheta (lC e) (aEnd a);
    do v <- lValid e x y;
    if negb v then truecost_loop e en child is
    else
      do h <- lGet e x y t;
      match h with
      | None => truecost_loop e en child is
      | Some id => if negb (id =? child)%nat then truecost_loop e en child is
                   else do cost <- lCost e (eX en) (eY en) a; Ok (if cost >=? INFINITECOST then -1 else cost)
      end
  end.
Definition lTrueCost (e : lat) (parent child : nat) : lres Z :=
  do en <- lCoord e parent; do _ <- lCoord e child; truecost_loop e en child (seq 0 (cWidth (lC e))).

(** environment_navxythetalat.cpp:2380-2389 the search for the cheapest action (the last of the cheapest ones), 2357-2407 GetActionsFromStateIDPath. *)
Fixpoint best_action (l : list (nat * Z * (nat * nat))) (target : nat) (bestcost : Z) (best : option (nat * nat)) : option (nat * nat) :=
  match l with
  | [] => best
  | s :: l => if (s.1.1 =? target)%nat && (s.1.2 <=? bestcost) then best_action l target s.1.2 (Some s.2) else best_action l target bestcost best
  end.
Fixpoint lActions (e : lat) (path : list nat) : lres (list (nat * nat) * lat) :=
  match path with
  | u :: ((v :: _) as rest) =>
    do r <- lSuccs e u;
    match best_action r.1 v INFINITECOST None with
    | None => Exn ()
    | Some a => do rs <- lActions r.2 rest; Ok (a :: rs.1, rs.2)
    end
  | _ => Ok ([], e)
  end.

(** environment_navxythetalat.cpp:2943-2973 GetPredsofChangedEdges. *)
Fixpoint affected_loop (e : lat) (cell : Z * Z) (l : list (Z * Z * Z)) (acc : list nat) : lres (list nat * lat) :=
  match l with
  | [] => Ok (acc, e)
  | s :: l =>
    do h <- lGet e (s.1.1 + cell.1) (s.1.2 + cell.2) s.2;
    match h with
    | None => affected_loop e cell l acc
    | Some id =>
      match lTab e !! id with
      | None => UB
      | Some en => if eIter en <? lIter e then affected_loop (set_tab e (<[id := mkEnt (eX en) (eY en) (eT en) (lIter e)]> (lTab e))) cell l (acc ++ [id])
                   else affected_loop e cell l acc
      end
    end
  end.
Fixpoint changed_loop (e : lat) (cells : list (Z * Z)) (acc : list nat) : lres (list nat * lat) :=
  match cells with
  | [] => Ok (acc, e)
  | c :: cells => do r <- affected_loop e c (cAffected (lC e)) acc; changed_loop r.2 cells r.1
  end.
Definition lChanged (e : lat) (cells : list (Z * Z)) (acc : list nat) : lres (list nat * lat) :=
  let e := mkLat (lC e) (lGrid e) (lTab e) (lMapping e) (lHash e) (lLook e) (lBins e) (lStartC e) (lGoalC e) (lStart e) (lGoal e) (lIter e + 1) (lNeedS e) (lNeedG e) in
  changed_loop e cells acc.

(** environment_navxythetalat.cpp:2118-2129 UpdateCost, 2131-2145 SetMap. *)
Definition lUpdate (e : lat) (x y v : Z) : lres lat :=
  match lGrid e !! (x, y) with
  | None => UB
  | Some _ => Ok (mkLat (lC e) (<[(x, y) := v]> (lGrid e)) (lTab e) (lMapping e) (lHash e) (lLook e) (lBins e) (lStartC e) (lGoalC e) (lStart e) (lGoal e) (lIter e) true true)
  end.
Definition gridof (w h : Z) (m : Z -> Z) : gmap (Z * Z) Z :=
  list_to_map ((fun c : Z * Z => (c, m (c.1 + c.2 * w))) <$> (y ← seqZ 0 h; (fun x => (x, y)) <$> seqZ 0 w)).
Definition lSetMap (e : lat) (m : Z -> Z) : lat :=
  mkLat (lC e) (gridof (cW (lC e)) (cH (lC e)) m) (lTab e) (lMapping e) (lHash e) (lLook e) (lBins e) (lStartC e) (lGoalC e) (lStart e) (lGoal e) (lIter e) true true.

(** environment_navxythetalat.cpp:2545-2582 SetStart, 2503-2542 SetGoal, after the conversion to a discrete pose; None: -1.  (IsValidConfiguration is only used
    for a warning.) *)
Definition lSetStart (e : lat) (x y t : Z) : lres (option nat * lat) :=
  if negb (lWithin e x y) then Ok (None, e)
  else
    do r <- lState e x y t;
    let e := r.2 in let new := negb (lStart e =? r.1)%nat in
    Ok (Some r.1, mkLat (lC e) (lGrid e) (lTab e) (lMapping e) (lHash e) (lLook e) (lBins e) (x, y, t) (lGoalC e) r.1 (lGoal e) (lIter e) (lNeedS e || new) (lNeedG e || new)).
Definition lSetGoal (e : lat) (x y t : Z) : lres (option nat * lat) :=
  if negb (lWithin e x y) then Ok (None, e)
  else
    do r <- lState e x y t;
    let e := r.2 in let new := negb (lGoal e =? r.1)%nat in
    Ok (Some r.1, mkLat (lC e) (lGrid e) (lTab e) (lMapping e) (lHash e) (lLook e) (lBins e) (lStartC e) (x, y, t) (lStart e) r.1 (lIter e) (lNeedS e || new) (lNeedG e || new)).
(** environment_navxythetalat.cpp:1770-1793 EnsureHeuristicsUpdated: what the 2D search is run with (map, threshold, from, to), if it is run. *)
Definition search_args : Type := gmap (Z * Z) Z * Z * (Z * Z) * (Z * Z).
Definition lEnsure (e : lat) (bGoal : bool) : option search_args * lat :=
  let st := (lStartC e).1 in let gl := (lGoalC e).1 in
  let upd ns ng := mkLat (lC e) (lGrid e) (lTab e) (lMapping e) (lHash e) (lLook e) (lBins e) (lStartC e) (lGoalC e) (lStart e) (lGoal e) (lIter e) ns ng in
  if bGoal then (if lNeedG e then (Some (lGrid e, cInsc (lC e), gl, st), upd (lNeedS e) false) else (None, e))
  else (if lNeedS e then (Some (lGrid e, cInsc (lC e), st, gl), upd false (lNeedG e)) else (None, e)).

(** ** Construction *)
(** What PrecomputeActionswithCompleteMotionPrimitive needs of a motion primitive: start angle (unsigned char), end cell, the cost computed in double (1195-1200, as the
    unsigned int stored), the centre cells (1173-1190) and the cells of get_2d_motion_cells (1203-1207). *)
Record prim := mkPrim { pStart : Z; pX : Z; pY : Z; pEnd : Z; pCost : Z; pInterm : list (Z * Z); pInter : list (Z * Z) }.
Notation tables := (list (list (option action)) * list (list (nat * nat)))%type.
(** environment_navxythetalat.cpp:1153-1253: the primitives of one angle.  Writing outside ActionsV[tind] or PredActionsV is undefined. *)
Fixpoint prims_loop (N : Z) (width : nat) (tind : nat) (ps : list prim) (aind : nat) (T : tables) : lres (nat * tables) :=
  match ps with
  | [] => Ok (aind, T)
  | p :: ps =>
    if negb (pStart p =? Z.of_nat tind) then prims_loop N width tind ps aind T
    else
      match T.1 !! tind with
      | None => UB
      | Some row =>
        if (length row <=? aind)%nat then UB
        else
          let a := mkAct (uchar (Z.of_nat aind)) (schar (Z.of_nat tind)) (schar (pX p)) (schar (pY p)) (schar (pEnd p)) (pCost p) (pInterm p) (pInter p) in
          let target := if aEnd a <? 0 then aEnd a + N else aEnd a in
          if target <? 0 then UB
          else match T.2 !! Z.to_nat target with
               | None => UB
               | Some q => prims_loop N width tind ps (S aind) (<[tind := <[aind := Some a]> row]> T.1, <[Z.to_nat target := q ++ [(tind, aind)]]> T.2)
               end
      end
  end.
Fixpoint angles_loop (N : Z) (width : nat) (ps : list prim) (tinds : list nat) (maxn : nat) (T : tables) : lres (nat * tables) :=
  match tinds with
  | [] => Ok (maxn, T)
  | t :: tinds => do r <- prims_loop N width t ps 0 T; angles_loop N width ps tinds (Nat.max maxn r.1) r.2
  end.
(** environment_navxythetalat.cpp:875-997 ComputeReplanningDataforAction (affectedsuccstatesV is not used by any function that works). *)
Definition add_new (l : list (Z * Z * Z)) (s : Z * Z * Z) : list (Z * Z * Z) := if decide (s ∈ l) then l else l ++ [s].
Definition replan_action (a : action) (l : list (Z * Z * Z)) : list (Z * Z * Z) :=
  let l := foldl (fun l c => add_new l (- c.1, - c.2, aStart a)) l (aInter a) in
  add_new (add_new l (0, 0, aStart a)) (- aDX a, - aDY a, aStart a).
(** environment_navxythetalat.cpp:999-1010 ComputeReplanningData. *)
Fixpoint replan_all (c : cfg) (is : list (nat * nat)) (l : list (Z * Z * Z)) : lres (list (Z * Z * Z)) :=
  match is with
  | [] => Ok l
  | p :: is => do a <- act_at c (Z.of_nat p.1) p.2; replan_all c is (replan_action a l)
  end.
(** environment_navxythetalat.cpp:1125-1286 PrecomputeActionswithCompleteMotionPrimitive; Exn: SBPL_Exception. *)
Definition precompute (W H N : Z) (nonuni : bool) (obs insc circ : Z) (poly : bool) (ps : list prim) : lres cfg :=
  if N =? 0 then UB
  else if N <? 0 then Exn ()
  else if negb (Z.of_nat (length ps) mod N =? 0) then Exn ()
  else
    let width := Z.to_nat (Z.of_nat (length ps) / N) in
    do r <- angles_loop N width ps (seq 0 (Z.to_nat N)) 0 (replicate (Z.to_nat N) (replicate width None), replicate (Z.to_nat N) []);
    if negb (Z.of_nat (length ps) =? N * Z.of_nat r.1) then Exn ()
    else
      let c := mkCfg W H N nonuni obs insc circ poly r.2.1 width r.2.2 [] in
      do aff <- replan_all c (t ← seq 0 (Z.to_nat N); (fun i => (t, i)) <$> seq 0 width) [];
      Ok (mkCfg W H N nonuni obs insc circ poly r.2.1 width r.2.2 aff).
(** environment_navxythetalat.cpp:128-215 SetConfiguration (the checks), 3011-3077 InitializeEnvironment; the flags are set by the constructor (51-79).
    StateID2IndexMapping is empty in a new object. *)
Definition lInit (c : cfg) (m : Z -> Z) (st gl : Z * Z * Z) : lres lat :=
  if negb (inrange c st.1.1 st.1.2 st.2) || negb (inrange c gl.1.1 gl.1.2 gl.2) then Exn ()
  else
    let e := mkLat c (gridof (cW c) (cH c) m) [] 0 (negb (maxsize c <=? 100000000)) ∅ ∅ st gl 0 0 0 true true in
    do r <- lState e st.1.1 st.1.2 st.2;
    do r2 <- lState r.2 gl.1.1 gl.1.2 gl.2;
    let e := r2.2 in
    Ok (mkLat (lC e) (lGrid e) (lTab e) (lMapping e) (lHash e) (lLook e) (lBins e) (lStartC e) (lGoalC e) r.1 r2.1 (lIter e) (lNeedS e) (lNeedG e)).
