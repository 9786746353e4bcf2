(** What C63 - C66 mean: the lattice graph of a robot that is cut into levels in z, each with its own map, thresholds and footprint. *)
From Verif Require Import Base LatModel LatSpec MlevModel.
Local Open Scope Z_scope.

(** The cells that the footprint of level [l] sweeps along primitive number [i] of angle [t]. *)
Definition swept (l : level) (t : Z) (i : nat) : list (Z * Z) := default [] (vCells l !! Z.to_nat t ≫= fun row => row !! i).
(** At level [l] the robot may execute primitive [p], with the swept cells [sw], from cell [s]: it starts and ends in free cells; the end and all centre cells on the way are in the map and below the
    level's inscribed threshold; the centre cells are free; and if the level's footprint is a polygon and some centre cell reaches the level's circumscribed threshold, then all cells it sweeps are free. *)
Definition safe_at (obs : Z) (l : level) (s : Z * Z) (p : prim) (sw : list (Z * Z)) : Prop :=
  free (vGrid l) obs s /\ free (vGrid l) obs (shift s (pX p, pY p)) /\ (forall v, vGrid l !! shift s (pX p, pY p) = Some v -> v < vInsc l) /\
  (forall o, o ∈ pInterm p -> exists v, vGrid l !! shift s o = Some v /\ v < vInsc l /\ v < obs) /\
  (vPoly l = true -> vCirc l <= 0 \/ (exists o v, o ∈ pInterm p /\ vGrid l !! shift s o = Some v /\ vCirc l <= v) -> forall o, o ∈ sw -> free (vGrid l) obs (shift s o)).
(** The base level's swept cells, when they are looked at, are also free at all other levels. *)
Definition base_sweep_free (ls : list level) (e : lat) (s : Z * Z) (p : prim) : Prop :=
  cPoly (lC e) = true -> cCirc (lC e) <= 0 \/ (exists o v, o ∈ pInterm p /\ lGrid e !! shift s o = Some v /\ cCirc (lC e) <= v) ->
  forall l o, l ∈ ls -> o ∈ pInter p -> free (vGrid l) (cObs (lC e)) (shift s o).
(** The cells whose costs count: start, end and centre cells of the base level, the centre cells of the others; and the greatest of their costs. *)
Definition counts (ls : list level) (e : lat) (s : Z * Z) (p : prim) (v : Z) : Prop :=
  lGrid e !! s = Some v \/ lGrid e !! shift s (pX p, pY p) = Some v \/ (exists o, o ∈ pInterm p /\ (lGrid e !! shift s o = Some v \/ exists l, l ∈ ls /\ vGrid l !! shift s o = Some v)).
Definition mgreatest (ls : list level) (e : lat) (s : Z * Z) (p : prim) (m : Z) : Prop := counts ls e s p m /\ forall v, counts ls e s p v -> v <= m.
(** Primitive number [i] of angle [t], the primitive [p], may be executed from [s]. *)
Definition mexec (ls : list level) (e : lat) (s : Z * Z) (t : Z) (i : nat) (p : prim) : Prop :=
  executable (lGrid e) (cObs (lC e)) (cInsc (lC e)) (cCirc (lC e)) (cPoly (lC e)) s p /\
  (forall l, l ∈ ls -> safe_at (cObs (lC e)) l s p (swept l t i)) /\ base_sweep_free ls e s p.
(** The edge from [u] to [v] that primitive number [i] of the angle of [u] gives, with its cost. *)
Definition medge (N : Z) (ps : list prim) (ls : list level) (e : lat) (i : nat) (u v : pose) (k : Z) : Prop :=
  exists p, of_angle u.2 ps !! i = Some p /\ v.1 = shift u.1 (pX p, pY p) /\ v.2 = pEnd p mod N /\ mexec ls e u.1 u.2 i p /\ exists m, mgreatest ls e u.1 p m /\ k = pCost p * (m + 1) /\ k < INFINITECOST.
(** A cell that is free at all levels. *)
Definition mfree (ls : list level) (e : lat) (c : Z * Z) : Prop := free (lGrid e) (cObs (lC e)) c /\ forall l, l ∈ ls -> free (vGrid l) (cObs (lC e)) c.
(** Primitive number [i] leads from [u] to [v], and the cell of [v] ([mleads]) or of [u] ([mleadsb]) is free at all levels; [k] is the cost of the primitive. *)
Definition mleads (N : Z) (ps : list prim) (ls : list level) (e : lat) (i : nat) (u v : pose) (k : Z) : Prop :=
  exists p, of_angle u.2 ps !! i = Some p /\ v.1 = shift u.1 (pX p, pY p) /\ v.2 = pEnd p mod N /\ mfree ls e v.1 /\ k = pCost p.
Definition mleadsb (N : Z) (ps : list prim) (ls : list level) (e : lat) (i : nat) (u v : pose) (k : Z) : Prop :=
  exists p, of_angle u.2 ps !! i = Some p /\ v.1 = shift u.1 (pX p, pY p) /\ v.2 = pEnd p mod N /\ mfree ls e u.1 /\ k = pCost p.

(** ** Histories of calls *)
Inductive mcall :=
| MBase (a : call)                            (* a call of the inherited interface *)
| MInit (ys : list levspec)                   (* InitializeAdditionalLevels *)
| MSet (m : Z -> Z) (lev : nat)               (* Set2DMapforAddLev *)
| MUpd (x y v : Z) (lev : nat).               (* UpdateCostinAddLev *)
(** As for the base class; GetPredsofChangedEdges is not supported; level indices are those of existing levels (Set2DMapforAddLev may also come before the levels exist). *)
Definition mallowed (s : mlev) (a : mcall) : Prop :=
  match a with
  | MBase (CChanged _) => False
  | MBase a => allowed (mB s) a
  | MInit _ => True
  | MSet m lev => (forall i, 0 <= m i <= 255) /\ (mAlloc s = true -> (lev < length (mLevs s))%nat)
  | MUpd x y v lev => (lev < length (mLevs s))%nat /\ 0 <= x < cW (lC (mB s)) /\ 0 <= y < cH (lC (mB s)) /\ 0 <= v <= 255
  end.
Definition with_base (s : mlev) (e : lat) : mlev := mkMlev e (mLevs s) (mAlloc s).
Definition mperform (s : mlev) (a : mcall) : lres mlev :=
  match a with
  | MBase (CSuccs id) => do r <- mSuccs (mLevs s) (mB s) id; Ok (with_base s r.2)
  | MBase (CPreds id) => do r <- mPreds (mLevs s) (mB s) id; Ok (with_base s r.2)
  | MBase (CLazySuccs id) => do r <- mLazySuccs (mLevs s) (mB s) id []; Ok (with_base s r.2)
  | MBase (CLazyPreds id) => do r <- mLazyPreds (mLevs s) (mB s) id []; Ok (with_base s r.2)
  | MBase (CChanged cells) => do r <- mChanged s cells []; Ok r.2
  | MBase a => do e <- perform (mB s) a; Ok (with_base s e)
  | MInit ys => Ok (mInitLevs s ys)
  | MSet m lev => do r <- mSetLev s m lev; Ok r.2
  | MUpd x y v lev => do r <- mUpdLev s x y v lev; Ok r.2
  end.
(** [mhist N k ps s]: some history of calls on a new object, initialized with these primitives (k of them for each angle, at most 256), ends in [s]. *)
Inductive mhist (N : Z) (k : nat) (ps : list prim) : mlev -> Prop :=
| mh_init e : (k <= 256)%nat -> hist N k ps e None None -> mhist N k ps (mNew e)
| mh_call s a s' : mhist N k ps s -> mallowed s a -> mperform s a = Ok s' -> mhist N k ps s'.
