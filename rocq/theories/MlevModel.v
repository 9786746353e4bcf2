(** Model of EnvironmentNAVXYTHETAMLEVLAT, /repo/src/discrete_space_information/environment_navxythetamlevlat.cpp and
    /repo/src/include/sbpl/discrete_space_information/environment_navxythetamlevlat.h: the (x, y, theta) lattice with additional levels in z, each with its own costmap,
    thresholds and footprint.  The class overrides the virtual functions IsValidCell(X, Y) and GetActionCost (environment_navxythetalat.h:461,503) of the class modelled in LatModel.v,
    so the inherited functions GetSuccs, GetPreds, GetLazySuccs, GetLazyPreds, GetTrueCost, GetActionsFromStateIDPath and the inherited GetActionCost call the new ones: they are written out
    again here, with [mValid] and [mCost].
    Simplifications: as in LatModel.v; the polygons are known only by whether they have more than one point and by the cells that get_2d_motion_cells and get_2d_footprint_cells give for
    them (FootprintProofs.v); memory is never freed. *)
From Verif Require Import Base NavModel LatModel.
Local Open Scope Z_scope.

(** environment_navxythetamlevlat.h:147-190: what the class keeps for one additional level: AddLevelGrid2D[l], AddLevel_cost_inscribed_thresh[l], AddLevel_cost_possibly_circumscribed_thresh[l],
    AddLevelFootprintPolygonV[l].size() > 1, and AdditionalInfoinActionsV[tind][aind].intersectingcellsV[l]. *)
Record level := mkLevel {
  vGrid : gmap (Z * Z) Z; vInsc : Z; vCirc : Z; vPoly : bool;
  vCells : list (list (list (Z * Z)))
}.
(** The object: the inherited part, the levels (numofadditionalzlevs of them), and whether AddLevelGrid2D is allocated. *)
Record mlev := mkMlev { mB : lat; mLevs : list level; mAlloc : bool }.

(** AddLevelGrid2D[l][x][y]. *)
Definition vrd (l : level) (x y : Z) : lres Z := match vGrid l !! (x, y) with Some v => Ok v | None => UB end.
(** environment_navxythetamlevlat.cpp:106-118 IsValidCell(X, Y): the loop, and the function. *)
Fixpoint levs_free (obs : Z) (ls : list level) (x y : Z) : lres bool :=
  match ls with
  | [] => Ok true
  | l :: ls => do v <- vrd l x y; if v >=? obs then Ok false else levs_free obs ls x y
  end.
Definition mValid (ls : list level) (e : lat) (x y : Z) : lres bool :=
  do b <- lValid e x y; if negb b then Ok false else levs_free (cObs (lC e)) ls x y.
(** environment_navxythetamlevlat.cpp:121-125 IsValidCell(X, Y, levind). *)
Definition mValidLev (ls : list level) (e : lat) (x y : Z) (lev : nat) : lres bool :=
  if negb (lWithin e x y) then Ok false
  else match ls !! lev with None => Ok false | Some l => do v <- vrd l x y; Ok (v <? cObs (lC e)) end.
(** environment_navxythetamlevlat.cpp:128-140 IsObstacle(X, Y), with environment_navxythetalat.cpp:2173-2180; 143-155 IsObstacle(X, Y, levind), DEBUG not set. *)
Fixpoint levs_obst (obs : Z) (ls : list level) (x y : Z) : lres bool :=
  match ls with
  | [] => Ok false
  | l :: ls => do v <- vrd l x y; if v >=? obs then Ok true else levs_obst obs ls x y
  end.
Definition mObstacle (ls : list level) (e : lat) (x y : Z) : lres bool :=
  do v <- lrd e x y; if v >=? cObs (lC e) then Ok true else levs_obst (cObs (lC e)) ls x y.
Definition mObstacleLev (ls : list level) (e : lat) (x y : Z) (lev : nat) : lres bool :=
  match ls !! lev with None => UB | Some l => do v <- vrd l x y; Ok (v >=? cObs (lC e)) end.
(** environment_navxythetamlevlat.cpp:158-167 GetMapCost(X, Y), with environment_navxythetalat.cpp:2253-2256; 170-182 GetMapCost(X, Y, levind). *)
Fixpoint levs_max (ls : list level) (x y m : Z) : lres Z :=
  match ls with
  | [] => Ok m
  | l :: ls => do v <- vrd l x y; levs_max ls x y (Z.max m v)
  end.
Definition mMapCost (ls : list level) (e : lat) (x y : Z) : lres Z := do v <- lrd e x y; levs_max ls x y v.
Definition mMapCostLev (ls : list level) (x y : Z) (lev : nat) : lres Z := match ls !! lev with None => UB | Some l => vrd l x y end.
(** environment_navxythetalat.cpp:1507-1538 IsValidConfiguration and environment_navxythetamlevlat.cpp:185-219: [fp] and [fps] are the cells of the footprints at the pose (base level, additional levels). *)
Fixpoint base_conf (e : lat) (fp : list (Z * Z)) : lres bool :=
  match fp with
  | [] => Ok true
  | c :: fp => if negb (lWithin e c.1 c.2) then Ok false else do v <- lrd e c.1 c.2; if v >=? cObs (lC e) then Ok false else base_conf e fp
  end.
Fixpoint lev_conf (e : lat) (l : level) (fp : list (Z * Z)) : lres bool :=
  match fp with
  | [] => Ok true
  | c :: fp => if negb (lWithin e c.1 c.2) then Ok false else do v <- vrd l c.1 c.2; if v >=? cObs (lC e) then Ok false else lev_conf e l fp
  end.
Fixpoint levs_conf (e : lat) (ls : list level) (fps : list (list (Z * Z))) : lres bool :=
  match ls, fps with
  | l :: ls, fp :: fps => do b <- lev_conf e l fp; if (b : bool) then levs_conf e ls fps else Ok false
  | _, _ => Ok true
  end.
Definition mValidConf (ls : list level) (e : lat) (fp : list (Z * Z)) (fps : list (list (Z * Z))) : lres bool :=
  do b <- base_conf e fp; if (b : bool) then levs_conf e ls fps else Ok false.

(** environment_navxythetalat.cpp:1594-1605 with the new IsValidCell. *)
Fixpoint mall_valid (ls : list level) (e : lat) (sx sy : Z) (cs : list (Z * Z)) : lres bool :=
  match cs with
  | [] => Ok true
  | c :: cs => do b <- mValid ls e (c.1 + sx) (c.2 + sy); if (b : bool) then mall_valid ls e sx sy cs else Ok false
  end.
(** environment_navxythetalat.cpp:1540-1619 GetActionCost of the base class with the new IsValidCell. *)
Definition mBaseCost (ls : list level) (e : lat) (sx sy : Z) (a : action) : lres Z :=
  let c := lC e in
  do v0 <- mValid ls e sx sy;
  if negb v0 then Ok INFINITECOST
  else
    do v1 <- mValid ls e (sx + aDX a) (sy + aDY a);
    if negb v1 then Ok INFINITECOST
    else
      do ge <- lrd e (sx + aDX a) (sy + aDY a);
      if ge >=? cInsc c then Ok INFINITECOST
      else
        do m <- centres e sx sy (aInterm a) 0;
        match m with
        | None => Ok INFINITECOST
        | Some m =>
          do ok <- (if cPoly c && (m >=? cCirc c) then mall_valid ls e sx sy (aInter a) else Ok true);
          if negb ok then Ok INFINITECOST
          else
            do gs <- lrd e sx sy;
            Ok (toi32 (u32 (aCost a * (Z.max (Z.max m gs) ge + 1))))
        end.
(** environment_navxythetamlevlat.cpp:246-250: the end cell against the inscribed threshold of each level. *)
Fixpoint ends_ok (ls : list level) (x y : Z) : lres bool :=
  match ls with
  | [] => Ok true
  | l :: ls => do v <- vrd l x y; if v >=? vInsc l then Ok false else ends_ok ls x y
  end.
(** environment_navxythetamlevlat.cpp:271-282: one centre cell at all levels; [mx] is maxcellcost, [ms] is maxcellcostateachlevel.  The break leaves the levels behind it alone. *)
Fixpoint centre_levs (obs : Z) (ls : list level) (x y : Z) (ms : list Z) (mx : Z) : lres (Z * list Z) :=
  match ls, ms with
  | l :: ls, m :: ms =>
    do v <- vrd l x y;
    let mx := Z.max mx v in let m := Z.max m v in
    if m >=? vInsc l then Ok (obs, obs :: ms)
    else do r <- centre_levs obs ls x y ms mx; Ok (r.1, m :: r.2)
  | _, _ => Ok (mx, ms)
  end.
(** environment_navxythetamlevlat.cpp:259-283: the centre cells. *)
Fixpoint centres_levs (e : lat) (ls : list level) (sx sy : Z) (cs : list (Z * Z)) (ms : list Z) (mx : Z) : lres (Z * list Z) :=
  match cs with
  | [] => Ok (mx, ms)
  | c :: cs =>
    if negb (mx <? cObs (lC e)) then Ok (mx, ms)
    else
      let x := c.1 + sx in let y := c.2 + sy in
      if (x <? 0) || (x >=? cW (lC e)) || (y <? 0) || (y >=? cH (lC e)) then Ok (cObs (lC e), ms)
      else do r <- centre_levs (cObs (lC e)) ls x y ms mx; centres_levs e ls sx sy cs r.2 r.1
  end.
(** environment_navxythetamlevlat.cpp:296-314: the swept cells of level [lev]. *)
Fixpoint swept_ok (ls : list level) (e : lat) (sx sy : Z) (lev : nat) (cs : list (Z * Z)) : lres bool :=
  match cs with
  | [] => Ok true
  | c :: cs => do b <- mValidLev ls e (c.1 + sx) (c.2 + sy) lev; if (b : bool) then swept_ok ls e sx sy lev cs else Ok false
  end.
(** environment_navxythetamlevlat.cpp:293-295: AdditionalInfoinActionsV[(unsigned int)starttheta][aind].intersectingcellsV[lev]. *)
Definition cells_at (l : level) (t i : Z) : lres (list (Z * Z)) :=
  if t <? 0 then UB else match vCells l !! Z.to_nat t with
                         | None => UB
                         | Some row => match row !! Z.to_nat i with Some cs => Ok cs | None => UB end
                         end.
(** environment_navxythetamlevlat.cpp:285-316: the loop over the levels, from level [lev] on ([rest] and [ms] are what is left of the levels and of maxcellcostateachlevel). *)
Fixpoint sweeps (ls : list level) (e : lat) (sx sy : Z) (a : action) (lev : nat) (rest : list level) (ms : list Z) (mx : Z) : lres Z :=
  match rest, ms with
  | l :: rest, m :: ms =>
    if negb (mx <? cObs (lC e)) then Ok mx
    else
      do ok <- (if vPoly l && (m >=? vCirc l) then do cs <- cells_at l (aStart a) (aInd a); swept_ok ls e sx sy lev cs else Ok true);
      sweeps ls e sx sy a (S lev) rest ms (if (ok : bool) then mx else cObs (lC e))
  | _, _ => Ok mx
  end.
(** environment_navxythetamlevlat.cpp:233-326 GetActionCostacrossAddLevels. *)
Definition mAddCost (ls : list level) (e : lat) (sx sy : Z) (a : action) : lres Z :=
  do v0 <- mValid ls e sx sy;
  if negb v0 then Ok INFINITECOST
  else
    do v1 <- mValid ls e (sx + aDX a) (sy + aDY a);
    if negb v1 then Ok INFINITECOST
    else match ls with
    | [] => Ok 0
    | _ :: _ =>
      do b <- ends_ok ls (sx + aDX a) (sy + aDY a);
      if negb b then Ok INFINITECOST
      else
        do r <- centres_levs e ls sx sy (aInterm a) (map (fun _ => 0) ls) 0;
        do mx <- sweeps ls e sx sy a 0 ls r.2 r.1;
        Ok (if mx >=? cObs (lC e) then INFINITECOST else toi32 (u32 (aCost a * (mx + 1))))
    end.
(** environment_navxythetamlevlat.cpp:221-231 GetActionCost. *)
Definition mCost (ls : list level) (e : lat) (sx sy : Z) (a : action) : lres Z :=
  do b <- mBaseCost ls e sx sy a;
  if b >=? INFINITECOST then Ok INFINITECOST
  else do c <- mAddCost ls e sx sy a; Ok (Z.max b c).

(** ** The inherited functions with the new IsValidCell and GetActionCost *)
(** environment_navxythetalat.cpp:2758-2820 GetSuccs. *)
Fixpoint msuccs_loop (ls : list level) (e : lat) (en : entry) (is : list nat) : lres (list (nat * Z * (nat * nat)) * lat) :=
  match is with
  | [] => Ok ([], e)
  | i :: is =>
    do a <- act_at (lC e) (eT en) i;
    let x := eX en + aDX a in let y := eY en + aDY a in
    do t <- normtheta (lC e) (aEnd a);
    do v <- mValid ls e x y;
    if negb v then msuccs_loop ls e en is
    else
      do cost <- mCost ls e (eX en) (eY en) a;
      if cost >=? INFINITECOST then msuccs_loop ls e en is
      else
        do r <- lState e x y t;
        do rest <- msuccs_loop ls r.2 en is;
        Ok ((r.1, cost, (Z.to_nat (eT en), i)) :: rest.1, rest.2)
  end.
Definition mSuccs (ls : list level) (e : lat) (id : nat) : lres (list (nat * Z * (nat * nat)) * lat) :=
  if (id =? lGoal e)%nat then Ok ([], e)
  else do en <- lCoord e id; msuccs_loop ls e en (seq 0 (cWidth (lC e))).
(** environment_navxythetalat.cpp:2822-2881 GetPreds. *)
Fixpoint mpreds_loop (ls : list level) (e : lat) (en : entry) (ps : list (nat * nat)) : lres (list (nat * Z) * lat) :=
  match ps with
  | [] => Ok ([], e)
  | p :: ps =>
    do a <- act_at (lC e) (Z.of_nat p.1) p.2;
    let x := eX en - aDX a in let y := eY en - aDY a in let t := aStart a in
    do v <- mValid ls e x y;
    if negb v then mpreds_loop ls e en ps
    else
      do cost <- mCost ls e x y a;
      if cost >=? INFINITECOST then mpreds_loop ls e en ps
      else
        do r <- lState e x y t;
        do rest <- mpreds_loop ls r.2 en ps;
        Ok ((r.1, cost) :: rest.1, rest.2)
  end.
Definition mPreds (ls : list level) (e : lat) (id : nat) : lres (list (nat * Z) * lat) :=
  do en <- lCoord e id; do ps <- preds_at (lC e) (eT en); mpreds_loop ls e en ps.
(** environment_navxythetalat.cpp:3203-3282 GetLazySuccs with actionV = NULL. *)
Fixpoint mlazy_loop (ls : list level) (e : lat) (en : entry) (is : list nat) : lres (list (nat * Z) * lat) :=
  match is with
  | [] => Ok ([], e)
  | i :: is =>
    do a <- act_at (lC e) (eT en) i;
    let x := eX en + aDX a in let y := eY en + aDY a in
    do t <- normtheta (lC e) (aEnd a);
    do v <- mValid ls e x y;
    if negb v then mlazy_loop ls e en is
    else
      do r <- lState e x y t;
      do rest <- mlazy_loop ls r.2 en is;
      Ok ((r.1, toi32 (aCost a)) :: rest.1, rest.2)
  end.
Definition mLazySuccs (ls : list level) (e : lat) (id : nat) (istrue : list bool) : lres (list (nat * Z) * list bool * lat) :=
  if (id =? lGoal e)%nat then Ok ([], istrue, e)
  else do en <- lCoord e id; do r <- mlazy_loop ls e en (seq 0 (cWidth (lC e))); Ok (r.1, istrue ++ map (fun _ => false) r.1, r.2).
(** environment_navxythetalat.cpp:3344-3393 GetLazyPreds. *)
Fixpoint mlazyp_loop (ls : list level) (e : lat) (en : entry) (ps : list (nat * nat)) : lres (list (nat * Z) * lat) :=
  match ps with
  | [] => Ok ([], e)
  | p :: ps =>
    do a <- act_at (lC e) (Z.of_nat p.1) p.2;
    let x := eX en - aDX a in let y := eY en - aDY a in let t := aStart a in
    do v <- mValid ls e x y;
    if negb v then mlazyp_loop ls e en ps
    else
      do r <- lState e x y t;
      do rest <- mlazyp_loop ls r.2 en ps;
      Ok ((r.1, toi32 (aCost a)) :: rest.1, rest.2)
  end.
Definition mLazyPreds (ls : list level) (e : lat) (id : nat) (istrue : list bool) : lres (list (nat * Z) * list bool * lat) :=
  do en <- lCoord e id; do ps <- preds_at (lC e) (eT en); do r <- mlazyp_loop ls e en ps; Ok (r.1, istrue ++ map (fun _ => false) r.1, r.2).
(** environment_navxythetalat.cpp:3284-3318 GetTrueCost. *)
Fixpoint mtruecost_loop (ls : list level) (e : lat) (en : entry) (child : nat) (is : list nat) : lres Z :=
  match is with
  | [] => Exn ()
  | i :: is =>
    do a <- act_at (lC e) (eT en) i;
    let x := eX en + aDX a in let y := eY en + aDY a in
    do t <- normtheta (lC e) (aEnd a);
    do v <- mValid ls e x y;
    if negb v then mtruecost_loop ls e en child is
    else
      do h <- lGet e x y t;
      match h with
      | None => mtruecost_loop ls e en child is
      | Some id => if negb (id =? child)%nat then mtruecost_loop ls e en child is
                   else do cost <- mCost ls e (eX en) (eY en) a; Ok (if cost >=? INFINITECOST then -1 else cost)
      end
  end.
Definition mTrueCost (ls : list level) (e : lat) (parent child : nat) : lres Z :=
  do en <- lCoord e parent; do _ <- lCoord e child; mtruecost_loop ls e en child (seq 0 (cWidth (lC e))).
(** environment_navxythetamlevlat.h:92-107 GetPredsofChangedEdges, GetSuccsofChangedEdges: they throw. *)
Definition mChanged (s : mlev) (cells : list (Z * Z)) (acc : list nat) : lres (list nat * mlev) := Exn ().

(** ** The functions that change the levels *)
(** environment_navxythetamlevlat.cpp:48-56: the constructor. *)
Definition mNew (e : lat) : mlev := mkMlev e [] false.
(** The arguments of InitializeAdditionalLevels for one level: whether the polygon has more than one point, the cells that get_2d_motion_cells gives for it and action [aind] of angle [tind], and the
    thresholds (unsigned char). *)
Record levspec := mkSpec { yPoly : bool; yCells : nat -> nat -> list (Z * Z); yInsc : Z; yCirc : Z }.
(** environment_navxythetamlevlat.cpp:339-425 InitializeAdditionalLevels. *)
Definition mInitLevs (s : mlev) (ys : list levspec) : mlev :=
  let c := lC (mB s) in
  mkMlev (mB s)
    ((fun y => mkLevel (gridof (cW c) (cH c) (fun _ => 0)) (yInsc y) (yCirc y) (yPoly y)
                 ((fun t => (fun i => yCells y t i) <$> seq 0 (cWidth c)) <$> seq 0 (Z.to_nat (cN c)))) <$> ys) true.
(** environment_navxythetamlevlat.cpp:428-443 Set2DMapforAddLev of a linear array, 448-463 of a 2D array ([m] is then given by x + y * width, too).  An index that is no level is undefined. *)
Definition set_grid (l : level) (g : gmap (Z * Z) Z) : level := mkLevel g (vInsc l) (vCirc l) (vPoly l) (vCells l).
Definition mSetLev (s : mlev) (m : Z -> Z) (lev : nat) : lres (bool * mlev) :=
  if negb (mAlloc s) then Ok (false, s)
  else match mLevs s !! lev with
       | None => UB
       | Some l => Ok (true, mkMlev (mB s) (<[lev := set_grid l (gridof (cW (lC (mB s))) (cH (lC (mB s))) m)]> (mLevs s)) (mAlloc s))
       end.
(** environment_navxythetamlevlat.cpp:469-480 UpdateCostinAddLev. *)
Definition mUpdLev (s : mlev) (x y v : Z) (lev : nat) : lres (bool * mlev) :=
  match mLevs s !! lev with
  | None => UB
  | Some l => match vGrid l !! (x, y) with
              | None => UB
              | Some _ => Ok (true, mkMlev (mB s) (<[lev := set_grid l (<[(x, y) := v]> (vGrid l))]> (mLevs s)) (mAlloc s))
              end
  end.
