(** What C77-C80 talk about, written without the model's own helpers: a grid map given by two arrays,
    the moves a robot can make on it, and the action each move gives. *)
From Verif Require Import Base EvalModel UuModel.
Local Open Scope Z_scope.

(** The arguments of InitializeEnv are complete: sizes not negative, and either no map at all or both
    arrays with a value for each of the w * h cells. *)
Definition MapOk (w h : Z) (map : option (list Z)) (umap : option (list Q)) : Prop :=
  0 <= w /\ 0 <= h /\
  match map with
  | None => True
  | Some m => exists um, umap = Some um /\ w * h <= Z.of_nat (length m) /\ w * h <= Z.of_nat (length um)
  end.

(** Cell (x, y) of an array is element x + y * w (the order InitializeEnv documents). *)
Definition MapCost (w : Z) (map : option (list Z)) (x y : Z) : Z :=
  match map with None => 0 | Some m => nth (Z.to_nat (x + y * w)) m 0 end.
Definition MapProb (w : Z) (map : option (list Z)) (umap : option (list Q)) (x y : Z) : Q :=
  match map, umap with
  | Some _, Some um => nth (Z.to_nat (x + y * w)) um 0%Q
  | _, _ => 0%Q
  end.

Definition InMap (w h x y : Z) : Prop := 0 <= x < w /\ 0 <= y < h.

(** A cell is uncertain when its probability of being blocked is neither (nearly) 0 nor (nearly) 1. *)
Definition Uncertain (p : Q) : Prop := (1 # 100000 <= p /\ p <= 99999 # 100000)%Q.
Definition SurelyFree (p : Q) : Prop := (p < 1 # 100000)%Q.
Definition SurelyBlocked (p : Q) : Prop := (99999 # 100000 < p)%Q.

(** The cost of a cell after a history of calls: that of the last UpdateCost on it, or the map's. *)
Fixpoint CostAfter (cost : Z -> Z -> Z) (os : list uuop) (x y : Z) : Z :=
  match os with
  | [] => cost x y
  | UuUpdate x' y' c :: os =>
    CostAfter (fun a b => if (a =? x') && (b =? y') then c else cost a b) os x y
  | _ :: os => CostAfter cost os x y
  end.
(** No UpdateCost of the history is outside the map. *)
Definition UpdatesInMap (w h : Z) (os : list uuop) : Prop :=
  forall x y c, In (UuUpdate x y c) os -> InMap w h x y.
(** The last accepted start and goal. *)
Fixpoint LastStart (w h : Z) (os : list uuop) (st : Z * Z) : Z * Z :=
  match os with
  | [] => st
  | UuStart x y :: os =>
    LastStart w h os (if (0 <=? x) && (x <? w) && (0 <=? y) && (y <? h) then (x, y) else st)
  | _ :: os => LastStart w h os st
  end.
Fixpoint LastGoal (w h : Z) (os : list uuop) (st : Z * Z) : Z * Z :=
  match os with
  | [] => st
  | UuGoal x y :: os =>
    LastGoal w h os (if (0 <=? x) && (x <? w) && (0 <=? y) && (y <? h) then (x, y) else st)
  | _ :: os => LastGoal w h os st
  end.

(** The beliefs passed to GetPreds: (variable, probability of being blocked), a byte, so 0 or at least 1. *)
Definition BeliefsOk (upd : list (Z * Z)) : Prop := forall v q, In (v, q) upd -> 0 <= q <= 255.
(** The probability that the cell with variable [hid] and map probability [p0] is blocked: the last
    belief about the variable, or the map's. *)
Definition Believed (upd : list (Z * Z)) (hid : Z) (p0 p : Q) : Prop :=
  (exists l1 q l2, upd = l1 ++ (hid, q) :: l2 /\ (forall q', ~ In (hid, q') l2) /\ p = inject_Z q) \/
  ((forall q, ~ In (hid, q) upd) /\ p = p0).

(** The world the robot moves in: size, obstacle threshold, costs, probabilities, variables of the cells. *)
Record world := mkWorld {
  wd_w : Z; wd_h : Z; wd_thr : Z; wd_cost : Z -> Z -> Z; wd_prob : Z -> Z -> Q; wd_hid : Z -> Z -> Z }.

(** Nothing uncertain about the cell: its map probability is (nearly) 0, or it is believed free. *)
Definition Passable (W : world) (upd : list (Z * Z)) (x y : Z) : Prop :=
  SurelyFree (wd_prob W x y) \/ In (wd_hid W x y, 0) upd.

(** The eight moves and their numbers. *)
Definition Dir (k dx dy : Z) : Prop :=
  (k, dx, dy) ∈ [(0, 1, 1); (1, 1, 0); (2, 1, -1); (3, 0, 1); (4, 0, -1); (5, -1, 1); (6, -1, 0); (7, -1, -1)].

(** A move between (x, y) and its neighbour (x + dx, y + dy), of cost [c]: every cell the move touches (for
    a diagonal move also the two it passes between) is below the threshold, the two cells between are
    passable, and the cost is the length times one more than the largest cost touched. *)
Definition Move (W : world) (upd : list (Z * Z)) (x y dx dy c : Z) : Prop :=
  let px := x + dx in
  let py := y + dy in
  InMap (wd_w W) (wd_h W) px py /\ wd_cost W x y < wd_thr W /\ wd_cost W px py < wd_thr W /\
  (dx = 0 \/ dy = 0 ->
     c = (Z.max (wd_cost W x y) (wd_cost W px py) + 1) * 1000) /\
  (dx <> 0 /\ dy <> 0 ->
     wd_cost W x py < wd_thr W /\ wd_cost W px y < wd_thr W /\ Passable W upd x py /\ Passable W upd px y /\
     c = (Z.max (Z.max (wd_cost W x y) (wd_cost W px py)) (Z.max (wd_cost W x py) (wd_cost W px y)) + 1) * 1414).

(** The action GetPreds reports for a move into (x, y), which is blocked with probability [p]: arrive at the
    move's cost, or stay in the neighbour at twice the cost. *)
Definition MoveAction (W : world) (upd : list (Z * Z)) (x y : Z) (p : Q) (a : uuact) : Prop :=
  exists k dx dy c, Dir k dx dy /\ Move W upd x y dx dy c /\
    let here := 1024 * x + y in
    let there := 1024 * (x + dx) + (y + dy) in
    a = mkUA k there [(here, c, (1 - p)%Q); (there, 2 * c, p)].

(** The cells of a w x h map with a given property, each once. *)
Definition CellsOf (w h : Z) (P : Z * Z -> Prop) (l : list (Z * Z)) : Prop :=
  NoDup l /\ forall x y, (x, y) ∈ l <-> InMap w h x y /\ P (x, y).

(** The numbering of the hidden variables of a w x h map: -1 for a cell that is not uncertain, and the
    numbers 0 .. n-1, each exactly once, for the uncertain ones. *)
Definition Numbering (w h : Z) (prob : Z -> Z -> Q) (n : Z) (hid : Z -> Z -> Z) : Prop :=
  (forall x y, InMap w h x y -> ~ Uncertain (prob x y) -> hid x y = -1) /\
  (forall x y, InMap w h x y -> Uncertain (prob x y) -> 0 <= hid x y < n) /\
  (forall x y x' y', InMap w h x y -> InMap w h x' y' -> Uncertain (prob x y) -> Uncertain (prob x' y') ->
     hid x y = hid x' y' -> x = x' /\ y = y') /\
  (forall i, 0 <= i < n -> exists x y, InMap w h x y /\ Uncertain (prob x y) /\ hid x y = i).
