(** Model of SBPL2DGridSearch (heap version), /repo/src/utils/2Dgridsearch.cpp and /repo/src/include/sbpl/utils/2Dgridsearch.h.
    A search state is identified by the number x + width_ * y (x and y, stored in the state by createSearchStates2D, are recovered from
    it; it is also the index used for pbClosed).  A float is a pair (m, k) that stands for m * 2^-k; the result of an operation is rounded
    to 24 significant bits, to nearest, ties to even ([rne] of DistModel); float overflow and underflow are not modelled.
    int results above 2^31 - 1 are undefined behaviour.  Grid2D is a function on the cells of the caller's map; reading outside that
    map is undefined behaviour.  Simplifications: printing, timing and the counter numofExpands are dropped; iteration_ does not overflow;
    the sliding bucket variant is in GridSlidingModel.v, search_exp and search_withbuckets (unused) are not modelled. *)
From Verif Require Import Base DistModel HeapModel.
Local Open Scope Z_scope.

(** 2Dgridsearch.h:46-53. *)
Inductive term := OPTPATHFOUND | TWENTYPERCENT | TWOTIMES | THREETIMES | ALLCELLS.
Notation gres A := (outcome unit A).
Definition hlift {A} (x : outcome (heap Z) A) : gres A :=
  match x with Ok a => Ok a | Exn _ => Exn () | UB => UB | OOF => OOF end.
Definition int32 (z : Z) : gres Z := if z <=? 2147483647 then Ok z else UB.
(** float times int, float to int (non-negative numbers only). *)
Definition fmulz (f : Z * Z) (n : Z) : Z * Z := (rne (f.1 * rne n), f.2).
Definition ftoint (f : Z * Z) : gres Z := int32 (f.1 / 2 ^ f.2).

(** 2Dgridsearch.cpp:218-290 computedxy: dx, dy, then the cells of dx0intersects.. (-1 where there are none; index 8.. are the long moves). *)
Definition gdirs : list (Z * Z * option (Z * Z * (Z * Z))) :=
  [(1, 1, None); (1, 0, None); (1, -1, None); (0, 1, None); (0, -1, None); (-1, 1, None); (-1, 0, None); (-1, -1, None);
   (2, 1, Some (1, 0, (1, 1))); (1, 2, Some (0, 1, (1, 1))); (-1, 2, Some (0, 1, (-1, 1))); (-2, 1, Some (-1, 0, (-1, 1)));
   (-2, -1, Some (-1, 0, (-1, -1))); (-1, -2, Some (0, -1, (-1, -1))); (1, -2, Some (0, -1, (1, -1))); (2, -1, Some (1, 0, (1, -1)))].

(** 2Dgridsearch.h:176-234 (private data); the caller's map size is kept to check accesses to Grid2D. *)
Record gsearch := mkGS {
  gsMapW : Z; gsMapH : Z;
  gsW : Z; gsH : Z;                  (* width_, height_ *)
  gsCell : Z * Z;                    (* cellSize_m_ *)
  gsDown : Z;                        (* downsample_ *)
  gsDist : Z * Z * Z;                (* dxy_distance_mm_: straight, diagonal, long *)
  gsIter : Z;                        (* iteration_ *)
  gsG : gmap nat Z;                  (* g of every state; INFINITECOST when absent *)
  gsAcc : gmap nat Z;                (* iterationaccessed; 0 when absent *)
  gsOpen : heap Z;                   (* OPEN2D_ *)
  gsGoal : Z * Z;                    (* goalX_, goalY_ *)
  gsLargest : Z;                     (* largestcomputedoptf_ *)
  gsTerm : term                      (* term_condition_usedlast *)
}.
Definition gof (s : gsearch) (i : nat) : Z := default INFINITECOST (gsG s !! i).
Definition accof (s : gsearch) (i : nat) : Z := default 0 (gsAcc s !! i).
Definition with_open (s : gsearch) (o : heap Z) : gsearch :=
  mkGS (gsMapW s) (gsMapH s) (gsW s) (gsH s) (gsCell s) (gsDown s) (gsDist s) (gsIter s) (gsG s) (gsAcc s) o (gsGoal s) (gsLargest s) (gsTerm s).
Definition set_g (s : gsearch) (i : nat) (v : Z) : gsearch :=
  mkGS (gsMapW s) (gsMapH s) (gsW s) (gsH s) (gsCell s) (gsDown s) (gsDist s) (gsIter s) (<[i := v]> (gsG s)) (gsAcc s) (gsOpen s) (gsGoal s) (gsLargest s) (gsTerm s).
Definition set_acc (s : gsearch) (i : nat) : gsearch :=
  mkGS (gsMapW s) (gsMapH s) (gsW s) (gsH s) (gsCell s) (gsDown s) (gsDist s) (gsIter s) (gsG s) (<[i := gsIter s]> (gsAcc s)) (gsOpen s) (gsGoal s) (gsLargest s) (gsTerm s).
Definition set_largest (s : gsearch) (l : Z) : gsearch :=
  mkGS (gsMapW s) (gsMapH s) (gsW s) (gsH s) (gsCell s) (gsDown s) (gsDist s) (gsIter s) (gsG s) (gsAcc s) (gsOpen s) (gsGoal s) l (gsTerm s).

(** 2Dgridsearch.cpp:76-121 constructor (with 165-185 createSearchStates2D, 280-293 the distances).  Note that the division is by the
    parameter, not by the sanitised downsample_.  Negative array sizes throw. *)
Definition new_gs (width_x height_y : Z) (cellsize_m : Z * Z) (downsample : Z) : gres gsearch :=
  if downsample =? 0 then UB
  else
    let w := Z.quot width_x downsample in let h := Z.quot height_y downsample in
    let cell := fmulz cellsize_m downsample in
    do d1 <- ftoint (fmulz cell 1000); do d2 <- ftoint (fmulz cell 1414); do d3 <- ftoint (fmulz cell 2236);
    if (w <? 0) || (h <? 0) then Exn ()
    else Ok (mkGS width_x height_y w h cell (Z.max 1 downsample) (d1, d2, d3) 0 ∅ ∅ (new_heap (w * h)) (-1, -1) 0 ALLCELLS).

Section search.
Context (grid : Z -> Z -> Z) (obsthresh : Z) (tc : term).

Definition rdgrid (s : gsearch) (x y : Z) : gres Z :=
  if (0 <=? x) && (x <? gsMapW s) && (0 <=? y) && (y <? gsMapH s) then Ok (grid x y) else UB.
Fixpoint maxover (s : gsearch) (l : list (Z * Z)) (m : Z) : gres Z :=
  match l with [] => Ok m | c :: l => do v <- rdgrid s c.1 c.2; maxover s l (Z.max m v) end.
(** 2Dgridsearch.cpp:43-74 getCostT, getCostN (for downsample 1 the loop of the model reads the one cell again). *)
Definition getCost (s : gsearch) (x y : Z) : gres Z :=
  let n := gsDown s in let x := x * n in let y := y * n in
  do m <- rdgrid s x y;
  maxover s (flat_map (fun dy => map (fun dx => (x + dx, y + dy)) (seqZ 0 n)) (seqZ 0 n)) m.
(** 2Dgridsearch.h:168-171 withinMap. *)
Definition withinMap (s : gsearch) (x y : Z) : bool := (x >=? 0) && (y >=? 0) && (x <? gsW s) && (y <? gsH s).
Definition cellid (s : gsearch) (x y : Z) : nat := Z.to_nat (x + gsW s * y).
(** 2Dgridsearch.h:61 SBPL_2DGRIDSEARCH_HEUR2D. *)
Definition heur2d (s : gsearch) (x y : Z) : gres Z :=
  ftoint (fmulz (fmulz (gsCell s) 1000) (Z.max (Z.abs (x - (gsGoal s).1)) (Z.abs (y - (gsGoal s).2)))).
(** g plus the heuristic when looking only for an optimal path: 2Dgridsearch.cpp:369-372, 443-446. *)
Definition mkkey (s : gsearch) (g x y : Z) : gres Z :=
  match tc with OPTPATHFOUND => do h <- heur2d s x y; int32 (g + h) | _ => Ok g end.

(** 2Dgridsearch.cpp:412-453: one direction. *)
Definition relax1 (closed : gset nat) (ex ey expcost : Z) (dir : Z * Z * option (Z * Z * (Z * Z))) (s : gsearch) : gres gsearch :=
  let newx := ex + dir.1.1 in let newy := ey + dir.1.2 in
  if negb (withinMap s newx newy) then Ok s
  else if decide (cellid s newx newy ∈ closed) then Ok s
  else
    do c <- getCost s newx newy;
    let mapcost := Z.max c expcost in
    do mapcost <- match dir.2 with
                  | None => Ok mapcost
                  | Some (x0, y0, (x1, y1)) =>
                    do c0 <- getCost s (ex + x0) (ey + y0);
                    do c1 <- getCost s (ex + x1) (ey + y1);
                    Ok (Z.max (Z.max mapcost c0) c1)
                  end;
    if mapcost >=? obsthresh then Ok s
    else
      let d := if (dir.1.1 =? 0) || (dir.1.2 =? 0) then (gsDist s).1.1 else match dir.2 with None => (gsDist s).1.2 | Some _ => (gsDist s).2 end in
      do cost <- int32 ((mapcost + 1) * d);
      let i := cellid s newx newy in
      do ng <- int32 (cost + gof s (cellid s ex ey));
      if negb (accof s i =? gsIter s) || (gof s i >? ng) then
        let s := set_g (set_acc s i) i (Z.min INFINITECOST ng) in
        do key <- mkkey s (gof s i) newx newy;
        do o <- hlift (if (idxof (gsOpen s) i =? 0)%nat then insertheap intops (gsOpen s) i key else updateheap intops (gsOpen s) i key);
        Ok (with_open s o)
      else Ok s.
Fixpoint relaxall (closed : gset nat) (ex ey expcost : Z) (dirs : list (Z * Z * option (Z * Z * (Z * Z)))) (s : gsearch) : gres gsearch :=
  match dirs with [] => Ok s | d :: dirs => do s <- relax1 closed ex ey expcost d s; relaxall closed ex ey expcost dirs s end.

(** 2Dgridsearch.cpp:377-395: term_factor as a float: 1, (float)(1.0/1.2), 0.5, (float)(1.0/3.0), 0. *)
Definition term_factor : Z * Z :=
  match tc with OPTPATHFOUND => (1, 0) | TWENTYPERCENT => (13981013, 24) | TWOTIMES => (1, 1) | THREETIMES => (11184811, 25) | ALLCELLS => (0, 0) end.
(** The test min(INFINITECOST, goal->g) > term_factor * minkey of line 400 (int operands are converted to float). *)
Definition goes_on (goalg key : Z) : bool :=
  (fmulz term_factor key).1 <? rne (Z.min INFINITECOST goalg) * 2 ^ term_factor.2.

(** 2Dgridsearch.cpp:399-455. *)
Fixpoint gloop (fuel : nat) (goal : nat) (closed : gset nat) (s : gsearch) : gres gsearch :=
  match fuel with
  | O => OOF
  | S fuel =>
    if emptyheap (gsOpen s) then Ok s
    else
      do k <- hlift (getminkeyheap intops (gsOpen s));
      if negb (goes_on (gof s goal) k) then Ok s
      else
        do r <- hlift (deleteminheap intops (gsOpen s));
        let s := with_open s r.2 in
        let ex := Z.of_nat r.1 mod gsW s in let ey := Z.of_nat r.1 / gsW s in
        let closed := {[r.1]} ∪ closed in
        do expcost <- getCost s ex ey;
        do s <- relaxall closed ex ey expcost gdirs s;
        gloop fuel goal closed s
  end.

(** 2Dgridsearch.cpp:187-192 initializeSearchState2D. *)
Definition initialize (s : gsearch) (i : nat) : gsearch :=
  let s := set_g (set_acc s i) i INFINITECOST in with_open s (set_idx (gsOpen s) i 0).

(** 2Dgridsearch.cpp:330-472 search_withheap (start and goal already divided by downsample_). *)
Definition search_withheap (s : gsearch) (startx starty goalx goaly : Z) : gres (bool * gsearch) :=
  let s := mkGS (gsMapW s) (gsMapH s) (gsW s) (gsH s) (gsCell s) (gsDown s) (gsDist s) (gsIter s + 1) (gsG s) (gsAcc s) (gsOpen s) (goalx, goaly) (gsLargest s) (gsTerm s) in
  do o <- hlift (makeemptyheap (gsOpen s));
  let s := mkGS (gsMapW s) (gsMapH s) (gsW s) (gsH s) (gsCell s) (gsDown s) (gsDist s) (gsIter s) (gsG s) (gsAcc s) o (gsGoal s) (gsLargest s) tc in
  if negb (withinMap s startx starty) || negb (withinMap s goalx goaly) then Ok (false, s)
  else
    let si := cellid s startx starty in let gi := cellid s goalx goaly in
    let s := initialize (initialize s si) gi in
    let s := set_g s si 0 in
    do key <- mkkey s 0 startx starty;
    do o <- hlift (insertheap intops (gsOpen s) si key);
    do s <- gloop (Z.to_nat (gsW s * gsH s) + 1) gi ∅ (with_open s o);
    do l <- (if emptyheap (gsOpen s) then Ok INFINITECOST else hlift (getminkeyheap intops (gsOpen s)));
    Ok (true, set_largest s l).
(** 2Dgridsearch.cpp:303-328 search (OPENtype_ HEAP). *)
Definition gsearch_run (s : gsearch) (startx starty goalx goaly : Z) : gres (bool * gsearch) :=
  let n := gsDown s in search_withheap s (Z.quot startx n) (Z.quot starty n) (Z.quot goalx n) (Z.quot goaly n).
End search.

(** 2Dgridsearch.h:134-159 getlowerboundoncostfromstart_inmm. *)
Definition lowerbound (s : gsearch) (x y : Z) : gres Z :=
  let x := Z.quot x (gsDown s) in let y := Z.quot y (gsDown s) in
  if negb (withinMap s x y) then UB
  else
    let i := cellid s x y in
    match gsTerm s with
    | OPTPATHFOUND =>
      do h <- heur2d s x y;
      do settled <- (if accof s i =? gsIter s then do f <- int32 (gof s i + h); Ok (f <=? gsLargest s) else Ok false);
      Ok (if (settled : bool) then gof s i
          else if gsLargest s <? INFINITECOST then gsLargest s - h else INFINITECOST)
    | _ => Ok (if (accof s i =? gsIter s) && (gof s i <=? gsLargest s) then gof s i else gsLargest s)
    end.
