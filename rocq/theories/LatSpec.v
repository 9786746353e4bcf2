(** What C37 - C44 mean: the lattice graph of a map and a set of motion primitives. *)
From Verif Require Import Base LatModel.
Local Open Scope Z_scope.

Notation pose := (Z * Z * Z)%type.     (* x, y, theta *)
Definition shift (s o : Z * Z) : Z * Z := (s.1 + o.1, s.2 + o.2).

(** The usable sets of motion primitives: at most 128 angles (a theta is a signed char); the same number of primitives for every angle; displacements that fit in a char; end angles
    between -N and N - 1; costs for which (cost * 256) fits in an int. *)
Definition of_angle (t : Z) (ps : list prim) : list prim := filter (fun p => pStart p = t) ps.
Record prims_ok (N : Z) (k : nat) (ps : list prim) : Prop := {
  po_N : 1 <= N <= 128;
  po_uniform : forall t, 0 <= t < N -> length (of_angle t ps) = k;
  po_start : forall p, p ∈ ps -> 0 <= pStart p < N;
  po_end : forall p, p ∈ ps -> -N <= pEnd p < N;
  po_disp : forall p, p ∈ ps -> -128 <= pX p < 128 /\ -128 <= pY p < 128;
  po_cost : forall p, p ∈ ps -> 0 <= pCost p <= 8388607
}.

Section graph.
(** The motion primitives, the map with its side lengths, and the thresholds (obstacle, inscribed, circumscribed), and whether the footprint is a polygon. *)
Context (N : Z) (ps : list prim) (g : gmap (Z * Z) Z) (obs insc circ : Z) (poly : bool).
Definition free (p : Z * Z) : Prop := exists v, g !! p = Some v /\ v < obs.
(** The robot may execute primitive [p] from cell [s]: it starts and ends in free cells; the end and all centre cells on the way are in the map and below the inscribed threshold; and if the
    footprint is a polygon and some centre cell reaches the circumscribed threshold, then all cells swept by the footprint are free. *)
Definition executable (s : Z * Z) (p : prim) : Prop :=
  free s /\ free (shift s (pX p, pY p)) /\ (forall v, g !! shift s (pX p, pY p) = Some v -> v < insc) /\
  (forall o, o ∈ pInterm p -> exists v, g !! shift s o = Some v /\ v < insc) /\
  (poly = true -> circ <= 0 \/ (exists o v, o ∈ pInterm p /\ g !! shift s o = Some v /\ circ <= v) -> forall o, o ∈ pInter p -> free (shift s o)).
(** The greatest cost of the start, end and centre cells. *)
Definition greatest (s : Z * Z) (p : prim) (m : Z) : Prop :=
  (exists c, (c = s \/ c = shift s (pX p, pY p) \/ exists o, o ∈ pInterm p /\ c = shift s o) /\ g !! c = Some m) /\
  forall c v, (c = s \/ c = shift s (pX p, pY p) \/ exists o, o ∈ pInterm p /\ c = shift s o) -> g !! c = Some v -> v <= m.
(** The edge from [u] to [v] that primitive [p] gives, with its cost. *)
Definition via (p : prim) (u v : pose) (k : Z) : Prop :=
  p ∈ ps /\ pStart p = u.2 /\ v.1 = shift u.1 (pX p, pY p) /\ v.2 = pEnd p mod N /\ executable u.1 p /\ exists m, greatest u.1 p m /\ k = pCost p * (m + 1) /\ k < INFINITECOST.
End graph.

(** ** The graph of an environment, and the histories of calls *)
Definition pose_of (en : entry) : pose := (eX en, eY en, eT en).
(** State [id] stands for pose [u] (GetCoordFromState). *)
Definition at_pose (e : lat) (id : nat) (u : pose) : Prop := exists en, lTab e !! id = Some en /\ pose_of en = u.
(** The edges in the current map. *)
Definition edge (N : Z) (ps : list prim) (e : lat) : prim -> pose -> pose -> Z -> Prop :=
  via N ps (lGrid e) (cObs (lC e)) (cInsc (lC e)) (cCirc (lC e)) (cPoly (lC e)).
(** Primitive [p] leads from [u] to [v], and the cell of [v] ([leads]) or of [u] ([leadsb]) is free. *)
Definition leads (N : Z) (ps : list prim) (e : lat) (p : prim) (u v : pose) : Prop :=
  p ∈ ps /\ pStart p = u.2 /\ v.1 = shift u.1 (pX p, pY p) /\ v.2 = pEnd p mod N /\ free (lGrid e) (cObs (lC e)) v.1.
Definition leadsb (N : Z) (ps : list prim) (e : lat) (p : prim) (u v : pose) : Prop :=
  p ∈ ps /\ pStart p = u.2 /\ v.1 = shift u.1 (pX p, pY p) /\ v.2 = pEnd p mod N /\ free (lGrid e) (cObs (lC e)) u.1.

(** The calls that change the environment (GetTrueCost does not, and GetActionsFromStateIDPath does what its calls of GetSuccs do). *)
Inductive call :=
| CGet (x y t : Z)                 (* GetStateFromCoord *)
| CSuccs (id : nat) | CPreds (id : nat) | CLazySuccs (id : nat) | CLazyPreds (id : nat)
| CUpdate (x y v : Z)              (* UpdateCost *)
| CSetMap (m : Z -> Z)
| CStart (x y t : Z) | CGoal (x y t : Z)
| CEnsure (goal : bool)            (* EnsureHeuristicsUpdated *)
| CChanged (cells : list (Z * Z)). (* GetPredsofChangedEdges *)
(** What callers must respect: poses inside the map, ids they got from the environment, costs of one byte.  SetStart and SetGoal may be outside the map. *)
Definition allowed (e : lat) (a : call) : Prop :=
  match a with
  | CGet x y t => 0 <= x < cW (lC e) /\ 0 <= y < cH (lC e) /\ 0 <= t < cN (lC e)
  | CSuccs id | CPreds id | CLazySuccs id | CLazyPreds id => exists u, at_pose e id u
  | CUpdate x y v => 0 <= x < cW (lC e) /\ 0 <= y < cH (lC e) /\ 0 <= v <= 255
  | CSetMap m => forall i, 0 <= m i <= 255
  | CStart x y t | CGoal x y t => 0 <= t < cN (lC e)
  | CEnsure _ | CChanged _ => True
  end.
Definition perform (e : lat) (a : call) : lres lat :=
  match a with
  | CGet x y t => do r <- lState e x y t; Ok r.2
  | CSuccs id => do r <- lSuccs e id; Ok r.2
  | CPreds id => do r <- lPreds e id; Ok r.2
  | CLazySuccs id => do r <- lLazySuccs e id []; Ok r.2
  | CLazyPreds id => do r <- lLazyPreds e id []; Ok r.2
  | CUpdate x y v => lUpdate e x y v
  | CSetMap m => Ok (lSetMap e m)
  | CStart x y t => do r <- lSetStart e x y t; Ok r.2
  | CGoal x y t => do r <- lSetGoal e x y t; Ok r.2
  | CEnsure b => Ok (lEnsure e b).2
  | CChanged cells => do r <- lChanged e cells []; Ok r.2
  end.
(** The arguments of the last 2D searches from the start and from the goal. *)
Definition searched (e : lat) (a : call) (b : bool) (last : option search_args) : option search_args :=
  match a with CEnsure b' => if Bool.eqb b b' then match (lEnsure e b').1 with Some s => Some s | None => last end else last | _ => last end.
(** [hist N k ps e s g]: some history of calls on a new environment with these primitives ends in [e], and the last 2D searches from the start and the goal were run with [s] and [g]. *)
Inductive hist (N : Z) (k : nat) (ps : list prim) : lat -> option search_args -> option search_args -> Prop :=
| h_init W H nonuni obs insc circ poly c m st gl e :
    prims_ok N k ps -> precompute W H N nonuni obs insc circ poly ps = Ok c -> (forall i, 0 <= m i <= 255) -> lInit c m st gl = Ok e -> hist N k ps e None None
| h_call e s g a e' : hist N k ps e s g -> allowed e a -> perform e a = Ok e' -> hist N k ps e' (searched e a false s) (searched e a true g).
(** [later N k ps e e']: [e'] follows [e] in a history. *)
Inductive later : lat -> lat -> Prop :=
| l_refl e : later e e
| l_call e e' a e'' : later e e' -> allowed e' a -> perform e' a = Ok e'' -> later e e''.
