(** Model of SBPL2DGridSearch with OPENtype_ SLIDINGBUCKETS (the way EnvironmentNAVXYTHETALATTICE uses it,
    /repo/src/discrete_space_information/environment_navxythetalat.cpp:1809-1810), /repo/src/utils/2Dgridsearch.cpp:124-163 and 705-880.
    Floats, ints, cells and the object are as in GridModel.v, the list is the one of SlidingModel.v.
    Simplifications: as in GridModel.v; the message about g above the least key, numofExpands and prevg are dropped; an exception ends the model's run (in the code it
    leaves the search and leaks pbClosed); heapindex is not used by this search. *)
From Verif Require Import Base DistModel HeapModel GridModel SlidingModel.
Local Open Scope Z_scope.

Inductive gberr := GInvalid (* "invalid priority" *) | GFull (* "bucket is full" *) | GOther.
Notation gbres A := (outcome gberr A).
Definition glift {A} (x : gres A) : gbres A := match x with Ok a => Ok a | Exn _ => Exn GOther | UB => UB | OOF => OOF end.
Definition slift {A} (x : sres A) : gbres A :=
  match x with Ok a => Ok a | Exn (SInvalid _) => Exn GInvalid | Exn (SFull _) => Exn GFull | Exn (SCreate _) => Exn GOther | UB => UB | OOF => OOF end.

(** The search object and OPEN2DBLIST_. *)
Record gsb := mkGSB { gbS : gsearch; gbL : sbk }.

(** 2Dgridsearch.cpp:124-163 setOPENdatastructure(SLIDINGBUCKETS): the heap is deleted; [init] is the constructor's parameter initial_dynamic_bucket_size (32 by default). *)
Definition maxdistance (s : gsearch) : Z := Z.max 0 (Z.max (gsDist s).1.1 (Z.max (gsDist s).1.2 (gsDist s).2)).
Definition set_sliding (s : gsearch) (init : Z) : gbres gsb :=
  do n <- glift (int32 (255 * maxdistance s));
  Ok (mkGSB s (new_sbk n (Z.max 1000 (gsW s + gsH s)) init)).

Section search.
Context (grid : Z -> Z -> Z) (obsthresh : Z) (tc : term).

(** 2Dgridsearch.cpp:806-852: one direction. *)
Definition brelax1 (closed : gset nat) (ex ey expcost : Z) (dir : Z * Z * option (Z * Z * (Z * Z))) (g : gsb) : gbres gsb :=
  let s := gbS g in
  let newx := ex + dir.1.1 in let newy := ey + dir.1.2 in
  if negb (withinMap s newx newy) then Ok g
  else if decide (cellid s newx newy ∈ closed) then Ok g
  else
    do c <- glift (getCost grid s newx newy);
    let mapcost := Z.max c expcost in
    do mapcost <- match dir.2 with
                  | None => Ok mapcost
                  | Some (x0, y0, (x1, y1)) =>
                    do c0 <- glift (getCost grid s (ex + x0) (ey + y0));
                    do c1 <- glift (getCost grid s (ex + x1) (ey + y1));
                    Ok (Z.max (Z.max mapcost c0) c1)
                  end;
    if mapcost >=? obsthresh then Ok g
    else
      let d := if (dir.1.1 =? 0) || (dir.1.2 =? 0) then (gsDist s).1.1 else match dir.2 with None => (gsDist s).1.2 | Some _ => (gsDist s).2 end in
      do cost <- glift (int32 ((mapcost + 1) * d));
      let i := cellid s newx newy in
      do ng <- glift (int32 (cost + gof s (cellid s ex ey)));
      if negb (accof s i =? gsIter s) || (gof s i >? ng) then
        let s := set_g (set_acc s i) i (Z.min INFINITECOST ng) in
        do l <- slift (sinsert (gbL g) i (gof s i));
        Ok (mkGSB s l)
      else Ok g.
Fixpoint brelaxall (closed : gset nat) (ex ey expcost : Z) (dirs : list (Z * Z * option (Z * Z * (Z * Z)))) (g : gsb) : gbres gsb :=
  match dirs with [] => Ok g | d :: dirs => do g <- brelax1 closed ex ey expcost d g; brelaxall closed ex ey expcost dirs g end.

(** The test goal->g > term_factor * getminkey() of line 777 (no minimum with INFINITECOST here). *)
Definition bgoes_on (goalg key : Z) : bool :=
  (fmulz (term_factor tc) key).1 <? rne goalg * 2 ^ (term_factor tc).2.

(** 2Dgridsearch.cpp:777-853. *)
Fixpoint bloop (fuel : nat) (goal : nat) (closed : gset nat) (g : gsb) : gbres gsb :=
  match fuel with
  | O => OOF
  | S fuel =>
    if sempty (gbL g) || negb (bgoes_on (gof (gbS g) goal) (getminkey (gbL g))) then Ok g
    else
      do r <- slift (spop (gbL g));
      match r.1 with
      | None => UB                                       (* searchExpState->g of NULL *)
      | Some u =>
        let g := mkGSB (gbS g) r.2 in
        if decide (u ∈ closed) then bloop fuel goal closed g
        else
          let ex := Z.of_nat u mod gsW (gbS g) in let ey := Z.of_nat u / gsW (gbS g) in
          let closed := {[u]} ∪ closed in
          do expcost <- glift (getCost grid (gbS g) ex ey);
          do g <- brelaxall closed ex ey expcost gdirs g;
          bloop fuel goal closed g
      end
  end.

(** 2Dgridsearch.cpp:187-192 initializeSearchState2D. *)
Definition binitialize (s : gsearch) (i : nat) : gsearch := set_g (set_acc s i) i INFINITECOST.

(** 2Dgridsearch.cpp:705-880 search_withslidingbuckets (start and goal already divided by downsample_).  Every cell is put into the list at most once per direction, so that the loop
    runs at most 16 times the number of cells plus once. *)
Definition search_withslidingbuckets (g : gsb) (startx starty goalx goaly : Z) : gbres (bool * gsb) :=
  let s := gbS g in
  let s := mkGS (gsMapW s) (gsMapH s) (gsW s) (gsH s) (gsCell s) (gsDown s) (gsDist s) (gsIter s + 1) (gsG s) (gsAcc s) (gsOpen s) (goalx, goaly) (gsLargest s) (gsTerm s) in
  if negb (withinMap s startx starty) || negb (withinMap s goalx goaly) then Ok (false, mkGSB s (gbL g))
  else
    let l := sreset (gbL g) in
    let s := mkGS (gsMapW s) (gsMapH s) (gsW s) (gsH s) (gsCell s) (gsDown s) (gsDist s) (gsIter s) (gsG s) (gsAcc s) (gsOpen s) (gsGoal s) (gsLargest s) tc in
    let si := cellid s startx starty in let gi := cellid s goalx goaly in
    let s := binitialize (binitialize s si) gi in
    let s := set_g s si 0 in
    do l <- slift (sinsert l si (gof s si));
    do g <- bloop (16 * Z.to_nat (gsW s * gsH s) + 2) gi ∅ (mkGSB s l);
    do r <- (if sempty (gbL g) then Ok (INFINITECOST, gbL g)
             else do r <- slift (sgetmin (gbL g)); match r.1 with None => UB | Some x => Ok (gof (gbS g) x, r.2) end);
    Ok (true, mkGSB (set_largest (gbS g) r.1) r.2).
(** 2Dgridsearch.cpp:303-328 search (OPENtype_ SLIDINGBUCKETS). *)
Definition bsearch_run (g : gsb) (startx starty goalx goaly : Z) : gbres (bool * gsb) :=
  let n := gsDown (gbS g) in search_withslidingbuckets g (Z.quot startx n) (Z.quot starty n) (Z.quot goalx n) (Z.quot goaly n).
End search.
