(** What the English of C26-C30 means, without the code's tables. *)
From Verif Require Import Base NavModel.
Local Open Scope Z_scope.

Definition in_map (W H : Z) (c : Z * Z) : Prop := 0 <= c.1 < W /\ 0 <= c.2 < H.

(** The moves of the 8- resp. 16-connected grid and their lengths in millimetres:
    straight 1000, diagonal 1414, knight moves (only when 16-connected) 2236. *)
Definition is_move (sixteen : bool) (dx dy len : Z) : Prop :=
  (Z.abs dx + Z.abs dy = 1 /\ len = 1000) \/
  (Z.abs dx = 1 /\ Z.abs dy = 1 /\ len = 1414) \/
  (sixteen = true /\ Z.min (Z.abs dx) (Z.abs dy) = 1 /\ Z.max (Z.abs dx) (Z.abs dy) = 2 /\ len = 2236).

(** Cells a move from s to t enters: the target and, for a diagonal, the two cells it squeezes
    between; for a knight move the two cells halfway along its long axis. *)
Definition touched (s t : Z * Z) : list (Z * Z) :=
  let dx := t.1 - s.1 in let dy := t.2 - s.2 in
  if (Z.abs dx =? 1) && (Z.abs dy =? 1) then [t; (s.1, t.2); (t.1, s.2)]
  else if Z.abs dx =? 2 then [t; (s.1 + Z.sgn dx, s.2); (s.1 + Z.sgn dx, t.2)]
  else if Z.abs dy =? 2 then [t; (s.1, s.2 + Z.sgn dy); (t.1, s.2 + Z.sgn dy)]
  else [t].

(** The graph: an edge from s to t of cost c on a map with cell costs g and obstacle threshold obs. *)
Definition edge (W H obs : Z) (sixteen : bool) (g : Z * Z -> Z) (s t : Z * Z) (c : Z) : Prop :=
  exists len m, is_move sixteen (t.1 - s.1) (t.2 - s.2) len /\ in_map W H t /\
    (forall x, x ∈ touched s t -> g x <= m) /\ (exists x, x ∈ touched s t /\ g x = m) /\
    m < obs /\ c = (m + 1) * len.

(** API calls after initialisation (SetEnvParameter is refused from then on). *)
Inductive nop :=
| NGetState (x y : Z) | NSetGoal (x y : Z) | NSetStart (x y : Z) | NUpdate (x y cost : Z)
| NSuccs (id : nat) | NPreds (id : nat) | NActions (id : nat)
| NPredsChanged (cs : list (Z * Z)) | NSuccsChanged (cs : list (Z * Z)).

(** State of the environment object after the call. *)
Definition nexec (e : nav) (o : nop) : nres nav :=
  match o with
  | NGetState x y => do r <- GetStateFromCoord e x y; Ok r.2
  | NSetGoal x y => do r <- SetGoal e x y; Ok r.2
  | NSetStart x y => do r <- SetStart e x y; Ok r.2
  | NUpdate x y c => UpdateCost e x y c
  | NSuccs id => do r <- GetSuccs e id; Ok r.2
  | NPreds id => do r <- GetPreds e id; Ok r.2
  | NActions id => do r <- SetAllActionsandAllOutcomes e id; Ok r.2
  | NPredsChanged cs => do r <- GetPredsofChangedEdges e cs; Ok r.2
  | NSuccsChanged cs => do r <- GetSuccsofChangedEdges e cs; Ok r.2
  end.
Fixpoint nrun (e : nav) (os : list nop) : nres nav :=
  match os with [] => Ok e | o :: os => do e' <- nexec e o; nrun e' os end.

(** e' can be reached from e by calls (all of which returned normally). *)
Definition nafter (e e' : nav) : Prop := exists os, nrun e os = Ok e'.
(** e is a properly initialised environment after some history. *)
Definition nav_reachable (e : nav) : Prop :=
  exists v w h m sx sy gx gy obs e0,
    InitializeEnv (SetEnvParameter16 new_nav v).2 w h m sx sy gx gy obs = Ok e0 /\ nafter e0 e.

(** What the caller can see of the map. *)
Definition sixteen (e : nav) : bool := (nDirs e =? 16)%nat.
Definition cellcost (e : nav) (c : Z * Z) : Z := default 0 (nGrid e !! c).
Definition nedge (e : nav) := edge (nW e) (nH e) (nObs e) (sixteen e) (cellcost e).
(** "the state with this id is cell c". *)
Definition id_of (e : nav) (id : nat) (c : Z * Z) : Prop := GetCoordFromState e id = Ok c.
(** "cell t is listed with cost c". *)
Definition listed (e : nav) (l : list (nat * Z)) (t : Z * Z) (c : Z) : Prop :=
  exists id, (id, c) ∈ l /\ id_of e id t.

(** Paths of the graph. *)
Inductive npath (e : nav) : Z * Z -> Z * Z -> Z -> Prop :=
| npath_nil s : npath e s s 0
| npath_cons s t u c C : nedge e s t c -> npath e t u C -> npath e s u (c + C).

(** The predecessor relation reported by GetPreds: within two cells of the border, predecessors
    that are obstacles themselves are left out. *)
Definition near_border (e : nav) (t : Z * Z) : Prop :=
  t.1 <= 1 \/ nW e - 2 <= t.1 \/ t.2 <= 1 \/ nH e - 2 <= t.2.
Definition pedge (e : nav) (s t : Z * Z) (c : Z) : Prop :=
  nedge e s t c /\ in_map (nW e) (nH e) s /\ (near_border e t -> cellcost e s < nObs e).
