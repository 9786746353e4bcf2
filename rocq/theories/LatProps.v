(** C37 - C44: the (x, y, theta) lattice environment. *)
From Verif Require Import Base NavModel LatModel LatSpec LatProofs LatProofs2 LatProofs3 LatProofs4 LatProofs5.
Local Open Scope Z_scope.

(** ** A concrete environment: two angles, a step and a turn for each, a 3 x 3 map. *)
Definition ex_ps : list prim :=
  [ mkPrim 0 1 0 0 10 [(0, 0); (1, 0)] [(0, 0); (1, 0)]; mkPrim 0 0 0 1 5 [(0, 0)] [(0, 0); (0, 1)];
    mkPrim 1 0 1 1 10 [(0, 0); (0, 1)] [(0, 0); (0, 1)]; mkPrim 1 0 0 (-2) 5 [(0, 0)] [(0, 0); (1, 0)] ].
Definition ex_map (i : Z) : Z := if i =? 4 then 254 else if i =? 1 then 3 else 0.
Definition ex_env (ps : list prim) (N : Z) (m : Z -> Z) (st gl : pose) : lres lat := do c <- precompute 3 3 N false 254 253 250 true ps; lInit c m st gl.
Lemma ex_ok : prims_ok 2 2 ex_ps.
Proof.
  split.
  - lia.
  - intros t Ht. assert (t = 0 \/ t = 1) as [-> | ->] by lia; reflexivity.
  - intros p Hp. unfold ex_ps in Hp. repeat (apply elem_of_cons in Hp as [-> |Hp]; [simpl; lia|]). by apply elem_of_nil in Hp.
  - intros p Hp. unfold ex_ps in Hp. repeat (apply elem_of_cons in Hp as [-> |Hp]; [simpl; lia|]). by apply elem_of_nil in Hp.
  - intros p Hp. unfold ex_ps in Hp. repeat (apply elem_of_cons in Hp as [-> |Hp]; [simpl; lia|]). by apply elem_of_nil in Hp.
  - intros p Hp. unfold ex_ps in Hp. repeat (apply elem_of_cons in Hp as [-> |Hp]; [simpl; lia|]). by apply elem_of_nil in Hp.
Qed.
Lemma ex_map_ok i : 0 <= ex_map i <= 255.
Proof. unfold ex_map. destruct (i =? 4), (i =? 1); lia. Qed.
Lemma ex_hist ps N k m st gl e : prims_ok N k ps -> (forall i, 0 <= m i <= 255) -> ex_env ps N m st gl = Ok e -> hist N k ps e None None.
Proof. intros Hp Hm E. apply obind_ok in E as (c & Ec & Ei). by eapply h_init. Qed.

Lemma hist_prims N k ps e s g : hist N k ps e s g -> prims_ok N k ps.
Proof. induction 1; done. Qed.

(** ** C37: state ids are a bijection with poses, forever. *)
(** No allowed call on any history fails: no exception, nothing undefined. *)
Theorem C37_total N k ps e s g a : hist N k ps e s g -> allowed e a -> exists e', perform e a = Ok e' /\ hist N k ps e' (searched e a false s) (searched e a true g).
Proof.
  intros Hh Ha. pose proof (hist_prims _ _ _ _ _ _ Hh) as OKp.
  destruct (hist_sane N k ps OKp e s g Hh) as [S _]. destruct (perform_spec N k ps OKp e a S Ha) as (e' & E & _). exists e'. split; [done|]. by eapply h_call.
Qed.
(** Ids are 0, 1, 2, ..., each has one pose inside the map, and no two have the same. *)
Theorem C37_bijection N k ps e s g : hist N k ps e s g ->
  (forall id, (id < length (lTab e))%nat <-> exists en, lCoord e id = Ok en) /\
  (forall i j a b, lCoord e i = Ok a -> lCoord e j = Ok b -> pose_of a = pose_of b -> i = j) /\
  (forall i a, lCoord e i = Ok a -> 0 <= eX a < cW (lC e) /\ 0 <= eY a < cH (lC e) /\ 0 <= eT a < N).
Proof.
  intros Hh. pose proof (hist_prims _ _ _ _ _ _ Hh) as OKp. destruct (hist_sane N k ps OKp e s g Hh) as [[[I C] _ _] _].
  assert (LC : forall id en, lCoord e id = Ok en <-> lTab e !! id = Some en). { intros id en. unfold lCoord. destruct (lTab e !! id); split; congruence. }
  split_and!.
  - intros id. split.
    + intros Hl. apply lookup_lt_is_Some in Hl as [en En]. exists en. by apply LC.
    + intros [en En%LC]. by eapply lookup_lt_Some.
  - intros i j a b Ha%LC Hb%LC. by eapply (li_inj _ I).
  - intros i a Ha%LC. apply (li_range _ I) in Ha. by rewrite inrange_iff, (co_N _ _ _ _ C) in Ha.
Qed.
(** A pose inside the map gets an id that stands for it, and whatever is called later, the pose has that id and the id that pose. *)
Theorem C37_persistent N k ps e s g x y t : hist N k ps e s g -> 0 <= x < cW (lC e) -> 0 <= y < cH (lC e) -> 0 <= t < N ->
  exists id e1, lState e x y t = Ok (id, e1) /\
    forall e2, later e1 e2 -> lState e2 x y t = Ok (id, e2) /\ exists en, lCoord e2 id = Ok en /\ pose_of en = (x, y, t).
Proof.
  intros Hh Hx Hy Ht. pose proof (hist_prims _ _ _ _ _ _ Hh) as OKp. destruct (hist_sane N k ps OKp e s g Hh) as [S _]. pose proof S as [[I C] _ _].
  destruct (lState_spec e x y t I) as (id & e1 & en & E & I1 & X1 & T1 & P1). { apply inrange_iff. rewrite (co_N _ _ _ _ C). done. }
  exists id, e1. split; [done|]. intros e2 L.
  assert (S1 : sane N k ps e1). { eapply sane_ext; [exact S|exact (good_ext _ _ _ _ _ (s_good _ _ _ _ S) I1 X1)|exact X1]. }
  destruct (later_keeps N k ps OKp e1 e2 S1 L) as [[[I2 _] _ _] [_ K]]. destruct (K id (x, y, t)) as (en2 & T2 & P2); [by exists en|].
  split.
  - unfold lState. destruct (lGet_spec e2 x y t I2) as (r & Er & Hr). rewrite Er. rewrite (proj2 (Hr id)) by eauto. done.
  - exists en2. unfold lCoord. by rewrite T2.
Qed.
Lemma lState_same e x y t id e' : lState e x y t = Ok (id, e') -> lMapping e' = lMapping e -> e' = e.
Proof.
  intros E M. unfold lState in E. apply obind_ok in E as ([i|] & Eg & E); [by injection E as _ ->|].
  exfalso. unfold lCreate in E. apply obind_ok in E as (e1 & Ee & E).
  assert (A : lMapping e1 = S (lMapping e)).
  { destruct (lHash e); [by injection Ee as <-|]. destruct ((xytindex (lC e) x y t <? 0) || (xytindex (lC e) x y t >=? maxsize (lC e))); [discriminate|]. by injection Ee as <-. }
  destruct (length (lTab e) <? lMapping e1)%nat; [|discriminate]. destruct (length (lTab e) =? lMapping e1 - 1)%nat; [|discriminate]. injection E as _ ->. lia.
Qed.
(** The range check of GetStateFromCoord is the caller's: with x = width, the new state takes the place of another pose, which afterwards has an id with the wrong coordinates. *)
Theorem C37_out_of_range_refuted : exists N k ps e id e1, hist N k ps e None None /\ (cW (lC e) = 3 /\ cH (lC e) = 3) /\
  lState e 3 0 0 = Ok (id, e1) /\ lState e1 0 1 0 = Ok (id, e1) /\ exists en, lCoord e1 id = Ok en /\ pose_of en = (3, 0, 0).
Proof.
  exists 2, 2%nat, ex_ps.
  assert (E : (do e <- ex_env ex_ps 2 ex_map (0, 0, 0) (2, 2, 0); do r <- lState e 3 0 0; do r2 <- lState r.2 0 1 0; do en <- lCoord r2.2 r2.1;
     Ok (cW (lC e), cH (lC e), (r.1, r2.1, lMapping r.2, lMapping r2.2), pose_of en)) = Ok (3, 3, (2%nat, 2%nat, 3%nat, 3%nat), (3, 0, 0))) by (vm_compute; reflexivity).
  apply obind_ok in E as (e & Ee & E). apply obind_ok in E as ([id e1] & E1 & E). apply obind_ok in E as ([id2 e2] & E2 & E). apply obind_ok in E as (en & En & E).
  simpl fst in *. simpl snd in *. injection E as EW EH -> -> M1 M2 EX EY ET.
  assert (EE : e2 = e1) by (apply (lState_same _ _ _ _ _ _ E2); congruence). subst e2.
  exists e, 2%nat, e1. split; [eapply ex_hist; [apply ex_ok|apply ex_map_ok|exact Ee]|]. split; [split; assumption|]. split; [exact E1|]. split; [exact E2|]. exists en. split; [exact En|]. unfold pose_of. rewrite EX, EY, ET. reflexivity.
Qed.

(** ** C38: successors and predecessors are the edges of the lattice. *)
Theorem C38_succs N k ps e s g id u : hist N k ps e s g -> at_pose e id u -> id <> lGoal e ->
  exists l e', lSuccs e id = Ok (l, e') /\ lGrid e' = lGrid e /\
    (* the actions reported are different ones, in the order of the primitives *)
    l.*2 `sublist_of` (pair (Z.to_nat u.2) <$> seq 0 k) /\
    (forall v c t i, (v, c, (t, i)) ∈ l <-> exists p w, Z.of_nat t = u.2 /\ of_angle u.2 ps !! i = Some p /\ at_pose e' v w /\ edge N ps e p u w c) /\
    (* hence *) (forall w c, (exists p, edge N ps e p u w c) <-> exists v a, (v, c, a) ∈ l /\ at_pose e' v w).
Proof.
  intros Hh Au Hg. pose proof (hist_prims _ _ _ _ _ _ Hh) as OKp. destruct (hist_sane N k ps OKp e s g Hh) as [[Ge _ _] _].
  destruct (lSuccs_spec N k ps OKp e id u Ge Au Hg) as (l & e' & E & G' & X & S & Hc & Hl). pose proof (at_range _ _ _ _ _ _ Ge Au) as (_ & _ & Rt).
  exists l, e'. split_and!; [done|apply X|done| |].
  - intros v c t i. rewrite Hl. simpl. split; intros (p & w & H1 & H); exists p, w; (split; [lia|done]).
  - intros w c. split.
    + intros [p Hp]. destruct (edge_place _ _ _ _ _ _ _ Hp) as [i Ei]. destruct (Hc p w c Hp) as [v Av].
      exists v, (Z.to_nat u.2, i). split; [|done]. apply Hl. exists p, w. done.
    + intros (v & a & Hin & Av). apply Hl in Hin as (p & w' & _ & _ & Aw & Hp). rewrite (at_fun _ _ _ _ Av Aw). eauto.
Qed.
(** One predecessor for each primitive that gives an edge. *)
Theorem C38_preds N k ps e s g id v : hist N k ps e s g -> at_pose e id v ->
  exists l e' qs, lPreds e id = Ok (l, e') /\ lGrid e' = lGrid e /\
    NoDup qs /\ (forall t i, (t, i) ∈ qs <-> exists p u c, of_angle (Z.of_nat t) ps !! i = Some p /\ edge N ps e p u v c) /\
    Forall2 (fun r q => exists p u, of_angle (Z.of_nat q.1) ps !! q.2 = Some p /\ at_pose e' r.1 u /\ edge N ps e p u v r.2) l qs /\
    (* hence *) (forall u c, (exists p, edge N ps e p u v c) <-> exists i, (i, c) ∈ l /\ at_pose e' i u).
Proof.
  intros Hh Av. pose proof (hist_prims _ _ _ _ _ _ Hh) as OKp. destruct (hist_sane N k ps OKp e s g Hh) as [[Ge _ _] _].
  destruct (lPreds_spec N k ps OKp e id v Ge Av) as (l & e' & qs & E & G' & X & ND & F & Hq).
  destruct (lPreds_in N k ps OKp e id v Ge Av) as (l2 & e2 & E2 & _ & _ & Hm). rewrite E in E2. injection E2 as <- <-.
  exists l, e', qs. split_and!; [done|apply X|done| | |].
  - intros t i. split.
    + intros Hin. apply elem_of_list_lookup in Hin as [n Hn]. destruct (Forall2_lookup_r _ _ _ _ _ F Hn) as (r & _ & u & _ & p & Ep & Hp). exists p, u, r.2. done.
    + intros (p & u & c & Ep & Hp). apply (Hq _ u c). exists p. done.
  - eapply Forall2_impl; [done|]. intros r q (u & Au & p & Ep & Hp). exists p, u. done.
  - intros u c. rewrite <- Hm. split; intros (i & ? & ?); exists i; done.
Qed.
(** Hence GetSuccs and GetPreds are converse, whatever was called in between, except that the goal has no successors. *)
Theorem C38_converse N k ps e s g a b u v : hist N k ps e s g -> at_pose e a u -> at_pose e b v -> a <> lGoal e ->
  exists ls e1 lp e2, lSuccs e a = Ok (ls, e1) /\ lPreds e b = Ok (lp, e2) /\ forall c, (exists t, (b, c, t) ∈ ls) <-> (a, c) ∈ lp.
Proof.
  intros Hh Au Av Hg. pose proof (hist_prims _ _ _ _ _ _ Hh) as OKp. destruct (hist_sane N k ps OKp e s g Hh) as [[Ge _ _] _].
  destruct (lSuccs_spec N k ps OKp e a u Ge Au Hg) as (ls & e1 & E1 & G1 & X1 & _ & _ & H1).
  destruct (lPreds_in N k ps OKp e b v Ge Av) as (lp & e2 & E2 & G2 & X2 & H2).
  exists ls, e1, lp, e2. split_and!; try done. intros c. split.
  - intros (t & Ht). apply H1 in Ht as (p & w & _ & _ & Aw & Hp). rewrite (at_fun _ _ _ _ Aw (at_ext _ _ _ _ X1 Av)) in Hp.
    destruct (proj2 (H2 u c)) as (i & Ai & Hi); [eauto|]. rewrite (at_inj e2 a i u (g_inv _ _ _ _ G2)); [done|by eapply at_ext|done].
  - intros Hin. destruct (proj1 (H2 u c)) as [p Hp]. { exists a. split; [by eapply at_ext|done]. }
    destruct (edge_place _ _ _ _ _ _ _ Hp) as [i Ei]. exists (Z.to_nat u.2, i). apply H1. exists p, v. split_and!; try done. by eapply at_ext.
Qed.
(** The goal is absorbing in GetSuccs only: GetPreds gives it as a predecessor. *)
Theorem C38_goal_refuted : exists N k ps e e2 lp b, hist N k ps e None None /\ lSuccs e (lGoal e) = Ok ([], e) /\ (b < length (lTab e))%nat /\ lPreds e b = Ok (lp, e2) /\ exists c, (lGoal e, c) ∈ lp.
Proof.
  exists 2, 2%nat, ex_ps.
  assert (E : (do e <- ex_env ex_ps 2 ex_map (2, 0, 0) (1, 0, 0); do r <- lPreds e 0; Ok (lGoal e, length (lTab e), r.1)) = Ok (1%nat, 2%nat, [(1%nat, 40); (2%nat, 5)])) by (vm_compute; reflexivity).
  apply obind_ok in E as (e & Ee & E). apply obind_ok in E as ([lp e2] & E1 & E). simpl fst in *. injection E as EG EL ->.
  exists e, e2, [(1%nat, 40); (2%nat, 5)], 0%nat. split_and!.
  - eapply ex_hist; [apply ex_ok|apply ex_map_ok|exact Ee].
  - unfold lSuccs. rewrite Nat.eqb_refl. reflexivity.
  - rewrite EL. repeat constructor.
  - exact E1.
  - exists 40. rewrite EG. left.
Qed.
Example C38_example : (do e <- ex_env ex_ps 2 ex_map (0, 0, 0) (2, 2, 0); do r <- lSuccs e 0; do r2 <- lSuccs r.2 2; do r3 <- lSuccs r2.2 3; Ok (r.1, r2.1, r3.1)) =
  Ok ([(2%nat, 40, (0%nat, 0%nat)); (3%nat, 5, (0%nat, 1%nat))], [(4%nat, 40, (0%nat, 0%nat)); (5%nat, 20, (0%nat, 1%nat))], [(6%nat, 10, (1%nat, 0%nat)); (0%nat, 5, (1%nat, 1%nat))]).
Proof. vm_compute. reflexivity. Qed.

(** ** C39: what a successor promises. *)
(** The robot starts and ends in free cells; the end and all centre cells are in the map and below the inscribed threshold; the cost is that of the primitive, times one plus the greatest of these
    cells, so it is at least that of the primitive; and if the map is inflated for the footprint (centre cells below the circumscribed threshold mean free cells all around), all swept cells are free. *)
Theorem C39_promise N k ps e s g id u l e' v c t i : hist N k ps e s g -> at_pose e id u -> lSuccs e id = Ok (l, e') -> (v, c, (t, i)) ∈ l ->
  exists p, of_angle u.2 ps !! i = Some p /\ at_pose e' v (shift u.1 (pX p, pY p), pEnd p mod N) /\
    free (lGrid e) (cObs (lC e)) u.1 /\ free (lGrid e) (cObs (lC e)) (shift u.1 (pX p, pY p)) /\
    (forall o, o = (pX p, pY p) \/ o ∈ pInterm p -> exists z, lGrid e !! shift u.1 o = Some z /\ z < cInsc (lC e)) /\
    (exists m, 0 <= m <= 255 /\ greatest (lGrid e) u.1 p m /\ c = pCost p * (m + 1)) /\ pCost p <= c < INFINITECOST /\
    (cPoly (lC e) = true ->
     ((forall o, o ∈ pInterm p -> exists z, lGrid e !! shift u.1 o = Some z /\ z < cCirc (lC e)) -> forall o, o ∈ pInter p -> free (lGrid e) (cObs (lC e)) (shift u.1 o)) ->
     forall o, o ∈ pInter p -> free (lGrid e) (cObs (lC e)) (shift u.1 o)).
Proof.
  intros Hh Au El Hin. pose proof (hist_prims _ _ _ _ _ _ Hh) as OKp. destruct (hist_sane N k ps OKp e s g Hh) as [[Ge _ _] _].
  assert (Hg : id <> lGoal e). { intros ->. unfold lSuccs in El. rewrite Nat.eqb_refl in El. injection El as <- <-. by apply elem_of_nil in Hin. }
  destruct (lSuccs_spec N k ps OKp e id u Ge Au Hg) as (l' & e1 & E1 & G1 & X1 & _ & _ & H1). rewrite El in E1. injection E1 as <- <-.
  apply H1 in Hin as (p & w & _ & Ep & Aw & Hp). pose proof (edge_lazy_cost N k ps OKp e p u w c (g_inv _ _ _ _ Ge) Hp) as Lz.
  destruct Hp as (Pin & Ps & W1 & W2 & (Y1 & Y2 & Y3 & Y4 & Y5) & m & Gm & -> & Lt). simpl in Ep. exists p.
  assert (W : w = (shift u.1 (pX p, pY p), pEnd p mod N)) by (destruct w; simpl in *; congruence). rewrite W in Aw.
  split; [exact Ep|]. split; [exact Aw|]. split; [exact Y1|]. split; [exact Y2|]. split; [|split; [|split; [done|]]].
  - intros o [-> |Ho]; [|by apply Y4]. destruct Y2 as (z & Ez & _). exists z. split; [done|]. by apply Y3.
  - exists m. split; [|split; [exact Gm|reflexivity]]. destruct Gm as [([x y] & _ & Gc) _]. apply (li_grid _ (g_inv _ _ _ _ Ge)) in Gc. tauto.
  - intros Hp Hinf o Ho. destruct (decide (Exists (fun o' => cCirc (lC e) <= default (cCirc (lC e) - 1) (lGrid e !! shift u.1 o')) (pInterm p))) as [Hex|Hno].
    + apply Exists_exists in Hex as (o' & Ho' & Hz). destruct (lGrid e !! shift u.1 o') as [z|] eqn:Ez; simpl in Hz; [|lia]. apply Y5; [done| |done]. right. exists o', z. done.
    + apply Hinf; [|done]. intros o' Ho'. destruct (Y4 o' Ho') as (z & Ez & _). exists z. split; [done|]. apply Z.nle_gt. intros Hle. apply Hno. apply Exists_exists. exists o'. rewrite Ez. done.
Qed.
(** Outside the usable primitives the promise fails: the product wraps around to a negative cost, and a displacement of more than 127 cells wraps around to another cell. *)
Theorem C39_overflow_refuted : exists ps e e' l, ex_env ps 1 (fun _ => 252) (0, 0, 0) (2, 2, 0) = Ok e /\ (forall p, p ∈ ps -> 0 <= pCost p <= 8500000) /\ lSuccs e 0 = Ok (l, e') /\
  exists v c a, (v, c, a) ∈ l /\ c < 0.
Proof.
  exists [mkPrim 0 1 0 0 8500000 [(0, 0)] [(0, 0)]].
  assert (E : (do e <- ex_env [mkPrim 0 1 0 0 8500000 [(0, 0)] [(0, 0)]] 1 (fun _ => 252) (0, 0, 0) (2, 2, 0); do r <- lSuccs e 0; Ok r.1) = Ok [(2%nat, -2144467296, (0%nat, 0%nat))]) by (vm_compute; reflexivity).
  apply obind_ok in E as (e & Ee & E). apply obind_ok in E as ([l e'] & E1 & E). simpl fst in *. injection E as ->.
  exists e, e', [(2%nat, -2144467296, (0%nat, 0%nat))]. split_and!; [exact Ee| |exact E1|].
  - clear. intros p Hp. apply elem_of_list_singleton in Hp as ->. simpl. lia.
  - clear. exists 2%nat, (-2144467296), (0%nat, 0%nat). split; [left|lia].
Qed.
Theorem C39_displacement_refuted : exists c e e' l en, precompute 300 1 1 false 254 253 250 true [mkPrim 0 150 0 0 10 [] []] = Ok c /\ lInit c (fun _ => 0) (120, 0, 0) (0, 0, 0) = Ok e /\
  lSuccs e 0 = Ok (l, e') /\ (exists cost a, (2%nat, cost, a) ∈ l) /\ lCoord e' 2 = Ok en /\ eX en = 14 (* not 270 *).
Proof.
  assert (E : (do c <- precompute 300 1 1 false 254 253 250 true [mkPrim 0 150 0 0 10 [] []]; do e <- lInit c (fun _ => 0) (120, 0, 0) (0, 0, 0); do r <- lSuccs e 0; do en <- lCoord r.2 2; Ok (r.1, eX en)) = Ok ([(2%nat, 10, (0%nat, 0%nat))], 14)) by (vm_compute; reflexivity).
  apply obind_ok in E as (c & Ec & E). apply obind_ok in E as (e & Ee & E). apply obind_ok in E as ([l e'] & E1 & E). simpl fst in *. apply obind_ok in E as (en & En & E). injection E as -> EX.
  exists c, e, e', [(2%nat, 10, (0%nat, 0%nat))], en. split_and!; [exact Ec|exact Ee|exact E1| |exact En|exact EX]. exists 10, (0%nat, 0%nat). left.
Qed.

(** ** C40: GetPredsofChangedEdges reports every state whose edges changed. *)
(** [e] is the environment after the map changed from [g1] in (some of) the cells [cells]; if the centre cells of a primitive are among its swept cells (or are its first or last cell), then every
    state with an edge that appeared, disappeared or changed its cost is reported, once. *)
Theorem C40_complete N k ps e s g g1 cells acc : hist N k ps e s g ->
  (forall p o, p ∈ ps -> o ∈ pInterm p -> o ∈ pInter p \/ o = (0, 0) \/ o = (pX p, pY p)) ->
  (forall c, c ∉ cells -> g1 !! c = lGrid e !! c) ->
  exists new e', lChanged e cells acc = Ok (acc ++ new, e') /\ NoDup new /\
    forall id u p v c, at_pose e id u ->
      ~ (via N ps g1 (cObs (lC e)) (cInsc (lC e)) (cCirc (lC e)) (cPoly (lC e)) p u v c <-> edge N ps e p u v c) -> id ∈ new.
Proof.
  intros Hh Hsub Hag. pose proof (hist_prims _ _ _ _ _ _ Hh) as OKp. destruct (hist_sane N k ps OKp e s g Hh) as [[[I C] _ _] _].
  destruct (lChanged_spec e cells acc I) as (new & e' & E & _ & _ & ND & Hnew). exists new, e'. split_and!; try done.
  intros id u p v c Au Hdiff. destruct (decide (id ∈ new)) as [|Hn]; [done|]. exfalso. apply Hdiff. clear Hdiff.
  assert (AG : p ∈ ps -> pStart p = u.2 -> forall o, o = (0, 0) \/ o = (pX p, pY p) \/ o ∈ pInter p -> g1 !! shift u.1 o = lGrid e !! shift u.1 o).
  { intros Pin Ps o Ho. destruct (decide (shift u.1 o ∈ cells)) as [Hc|Hc]; [|by apply Hag]. exfalso. apply Hn. apply Hnew.
    exists (shift u.1 o), (- o.1, - o.2, pStart p). split_and!; [done| |].
    - apply (co_aff _ _ _ _ C). exists p. simpl. split_and!; [done|done|]. destruct Ho as [-> |[-> |Ho]]; simpl; [by left|by right; left|right; right; eauto].
    - simpl. rewrite Ps. replace (- o.1 + (u.1.1 + o.1), - o.2 + (u.1.2 + o.2), u.2) with u; [done|]. destruct u as [[? ?] ?]; simpl. f_equal. f_equal; lia. }
  unfold edge. split; intros Hv; pose proof Hv as (Pin & Ps & _); (eapply via_agree; [|by intros o; apply Hsub|exact Hv]); intros o Ho; [by apply AG|by rewrite AG].
Qed.
(** It reports nothing but states one of whose primitives touches a changed cell with its first, last or swept cells. *)
Theorem C40_sound N k ps e s g cells acc new e' id u : hist N k ps e s g -> lChanged e cells acc = Ok (acc ++ new, e') -> at_pose e id u ->
  (id ∈ new <-> exists p o, p ∈ ps /\ pStart p = u.2 /\ (o = (0, 0) \/ o = (pX p, pY p) \/ o ∈ pInter p) /\ shift u.1 o ∈ cells).
Proof.
  intros Hh E Au. pose proof (hist_prims _ _ _ _ _ _ Hh) as OKp. destruct (hist_sane N k ps OKp e s g Hh) as [[[I C] _ _] _].
  destruct (lChanged_spec e cells acc I) as (new' & e2 & E' & _ & _ & ND & Hnew). rewrite E in E'. injection E' as E' _. apply app_inv_head in E' as ->.
  rewrite Hnew. split.
  - intros (cell & st & Hc & Hs & At). apply (co_aff _ _ _ _ C) in Hs as (p & Pin & Es & Ho). pose proof (at_fun _ _ _ _ Au At) as ->. simpl.
    assert (OO : exists o, (o = (0, 0) \/ o = (pX p, pY p) \/ o ∈ pInter p) /\ st.1 = (- o.1, - o.2)).
    { destruct Ho as [-> |[-> |(o & Ho & ->)]]; [exists (0, 0); split; [by left|done]|exists (pX p, pY p); split; [by right; left|done]|exists o; split; [by right; right|done]]. }
    destruct OO as (o & Ho' & Eo). exists p, o. split_and!; [done|done|done|]. rewrite Eo. simpl. unfold shift. simpl.
    replace (- o.1 + cell.1 + o.1, - o.2 + cell.2 + o.2) with cell; [done|]. destruct cell; simpl. f_equal; lia.
  - intros (p & o & Pin & Ps & Ho & Hc). exists (shift u.1 o), (- o.1, - o.2, pStart p). split_and!; [done| |].
    + apply (co_aff _ _ _ _ C). exists p. simpl. split_and!; [done|done|]. destruct Ho as [-> |[-> |Ho]]; simpl; [by left|by right; left|right; right; eauto].
    + simpl. rewrite Ps. replace (- o.1 + (u.1.1 + o.1), - o.2 + (u.1.2 + o.2), u.2) with u; [done|]. destruct u as [[? ?] ?]; simpl. f_equal. f_equal; lia.
Qed.
(** A footprint that does not cover the robot's centre has centre cells that are not swept cells: then an edge disappears and its state is not reported. *)
Definition off_ps : list prim := [mkPrim 0 2 0 0 10 [(0, 0); (1, 0); (2, 0)] [(0, 1); (1, 1); (2, 1)]].
Theorem C40_off_centre_refuted : exists N k ps e e1 e2 e3 e4 l, hist N k ps e None None /\ lSuccs e 0 = Ok ([(2%nat, 10, (0%nat, 0%nat))], e1) /\ lUpdate e1 1 0 253 = Ok e2 /\
  lSuccs e2 0 = Ok ([], e3) /\ lChanged e2 [(1, 0)] [] = Ok (l, e4) /\ 0%nat ∉ l.
Proof.
  exists 1, 1%nat, off_ps.
  assert (E : (do e <- ex_env off_ps 1 (fun _ => 0) (0, 0, 0) (2, 2, 0); do r <- lSuccs e 0; do e2 <- lUpdate r.2 1 0 253; do r3 <- lSuccs e2 0; do r4 <- lChanged e2 [(1, 0)] []; Ok (r.1, r3.1, r4.1)) = Ok ([(2%nat, 10, (0%nat, 0%nat))], [], [])) by (vm_compute; reflexivity).
  apply obind_ok in E as (e & Ee & E). apply obind_ok in E as ([l1 e1] & E1 & E). simpl fst in *. simpl snd in *. apply obind_ok in E as (e2 & E2 & E). apply obind_ok in E as ([l3 e3] & E3 & E). apply obind_ok in E as ([l4 e4] & E4 & E). simpl in E. injection E as -> -> ->.
  exists e, e1, e2, e3, e4, []. split; [|split_and!; [exact E1|exact E2|exact E3|exact E4|clear; by intros H%elem_of_nil]].
  eapply (ex_hist off_ps 1 1 (fun _ => 0)); [|clear; intros; lia|exact Ee]. clear.
  split; try (intros p Hp; apply elem_of_list_singleton in Hp as ->; simpl; lia); [lia|]. intros t Ht. assert (t = 0) as -> by lia. reflexivity.
Qed.
Example C40_example : (do e <- ex_env ex_ps 2 ex_map (0, 0, 0) (2, 2, 0); do r <- lSuccs e 0; do e2 <- lUpdate r.2 1 0 9; do r2 <- lChanged e2 [(1, 0)] []; do r3 <- lSuccs r2.2 0; Ok (r.1, r2.1, r3.1)) =
  Ok ([(2%nat, 40, (0%nat, 0%nat)); (3%nat, 5, (0%nat, 1%nat))], [2%nat; 0%nat; 3%nat], [(2%nat, 100, (0%nat, 0%nat)); (3%nat, 5, (0%nat, 1%nat))]).
Proof. vm_compute. reflexivity. Qed.

(** ** C41: lazy successors and predecessors never overestimate and miss no edge. *)
Theorem C41_lazy_succs N k ps e s g id u b : hist N k ps e s g -> at_pose e id u -> id <> lGoal e ->
  exists l e', lLazySuccs e id b = Ok (l, b ++ replicate (length l) false, e') /\
    (forall v c, (v, c) ∈ l <-> exists p w, at_pose e' v w /\ leads N ps e p u w /\ c = pCost p) /\
    (forall p w c, edge N ps e p u w c -> exists v c', at_pose e' v w /\ (v, c') ∈ l /\ c' <= c).
Proof.
  intros Hh Au Hg. pose proof (hist_prims _ _ _ _ _ _ Hh) as OKp. destruct (hist_sane N k ps OKp e s g Hh) as [[Ge _ _] _].
  destruct (lLazySuccs_spec N k ps OKp e id u b Ge Au Hg) as (l & e' & E & G' & X & Hc & Hl). exists l, e'. split_and!; try done.
  intros p w c Hp. pose proof (edge_leads _ _ _ _ _ _ _ Hp) as L. destruct (Hc p w L) as [v Av]. exists v, (pCost p). split_and!; [done|apply Hl; exists p, w; done|].
  eapply edge_lazy_cost; [done|apply Ge|done].
Qed.
Theorem C41_lazy_preds N k ps e s g id v b : hist N k ps e s g -> at_pose e id v ->
  exists l e', lLazyPreds e id b = Ok (l, b ++ replicate (length l) false, e') /\
    (forall u c, (u, c) ∈ l <-> exists p w, at_pose e' u w /\ leadsb N ps e p w v /\ c = pCost p) /\
    (forall p w c, edge N ps e p w v c -> exists u c', at_pose e' u w /\ (u, c') ∈ l /\ c' <= c).
Proof.
  intros Hh Av. pose proof (hist_prims _ _ _ _ _ _ Hh) as OKp. destruct (hist_sane N k ps OKp e s g Hh) as [[Ge _ _] _].
  destruct (lLazyPreds_spec N k ps OKp e id v b Ge Av) as (l & e' & E & G' & X & Hc & Hl). exists l, e'. split_and!; try done.
  intros p w c Hp. pose proof (edge_leadsb _ _ _ _ _ _ _ Hp) as L. destruct (Hc p w L) as [u Au]. exists u, (pCost p). split_and!; [done|apply Hl; exists p, w; done|].
  eapply edge_lazy_cost; [done|apply Ge|done].
Qed.
(** GetTrueCost of a pair: a cost it returns is that of an edge; it throws exactly if no primitive leads there; if just one primitive does, it returns the cost of its edge, or -1 if there is none. *)
Theorem C41_true_cost N k ps e s g i j u v : hist N k ps e s g -> at_pose e i u -> at_pose e j v ->
  (lTrueCost e i j = Exn () <-> forall p, ~ leads N ps e p u v) /\ (lTrueCost e i j = Exn () \/ exists c, lTrueCost e i j = Ok c) /\
  (forall c, lTrueCost e i j = Ok c -> c <> -1 -> exists p, edge N ps e p u v c) /\
  (forall p, leads N ps e p u v -> (forall p', leads N ps e p' u v -> p' = p) ->
    (forall c, edge N ps e p u v c -> lTrueCost e i j = Ok c) /\ ((forall c, ~ edge N ps e p u v c) -> lTrueCost e i j = Ok (-1))).
Proof.
  intros Hh Au Av. pose proof (hist_prims _ _ _ _ _ _ Hh) as OKp. destruct (hist_sane N k ps OKp e s g Hh) as [[Ge _ _] _].
  destruct (lTrueCost_spec N k ps OKp e i j u v Ge Au Av) as [[E H]|(p & L & [(c & Hp & E)|[Hno E]])]; rewrite E.
  - split_and!; try done; [by left|]. intros p L. by destruct (H p L).
  - split_and!; [split; [done|]; intros Hn; by destruct (Hn p L)|right; eauto|intros c' [= <-] _; eauto|].
    intros p' L' U. pose proof (U p L) as ->. split; [|intros Hn; by destruct (Hn c Hp)]. intros c' Hp'. destruct (edge_fun _ _ _ _ _ _ _ _ _ Hp Hp') as [_ ->]. done.
  - split_and!; [split; [done|]; intros Hn; by destruct (Hn p L)|right; eauto|by intros c' [= <-]|].
    intros p' L' U. pose proof (U p L) as ->. split; [|done]. intros c' Hp'. by destruct (Hno c' Hp').
Qed.
(** With two primitives to the same pose, the first decides: -1 (no edge) or too high a cost for an edge that GetSuccs gives more cheaply. *)
Definition two_ps : list prim := [mkPrim 0 1 0 0 30 [(0, 1)] []; mkPrim 0 1 0 0 10 [] []].
Lemma two_ok : prims_ok 1 2 two_ps.
Proof.
  split; try (intros p Hp; unfold two_ps in Hp; repeat (apply elem_of_cons in Hp as [-> |Hp]; [simpl; lia|]); by apply elem_of_nil in Hp); [lia|].
  intros t Ht. assert (t = 0) as -> by lia. reflexivity.
Qed.
Theorem C41_two_actions_refuted : exists N k ps e e1 e2 e3 l3, hist N k ps e None None /\
  lSuccs e 0 = Ok ([(2%nat, 30, (0%nat, 0%nat)); (2%nat, 10, (0%nat, 1%nat))], e1) /\ lTrueCost e1 0 2 = Ok 30 /\
  lUpdate e1 0 1 254 = Ok e2 /\ lSuccs e2 0 = Ok ([(2%nat, 10, l3)], e3) /\ lTrueCost e3 0 2 = Ok (-1).
Proof.
  exists 1, 2%nat, two_ps.
  assert (E : (do e <- ex_env two_ps 1 (fun _ => 0) (0, 0, 0) (2, 2, 0); do r <- lSuccs e 0; do t <- lTrueCost r.2 0 2; do e2 <- lUpdate r.2 0 1 254; do r3 <- lSuccs e2 0; do t3 <- lTrueCost r3.2 0 2; Ok (r.1, t, r3.1, t3))
    = Ok ([(2%nat, 30, (0%nat, 0%nat)); (2%nat, 10, (0%nat, 1%nat))], 30, [(2%nat, 10, (0%nat, 1%nat))], -1)) by (vm_compute; reflexivity).
  apply obind_ok in E as (e & Ee & E). apply obind_ok in E as ([l1 e1] & E1 & E). simpl fst in *. simpl snd in *. apply obind_ok in E as (t & Et & E). apply obind_ok in E as (e2 & E2 & E). apply obind_ok in E as ([l3 e3] & E3 & E). simpl fst in *. simpl snd in *. apply obind_ok in E as (t3 & Et3 & E). injection E as -> -> -> ->.
  exists e, e1, e2, e3, (0%nat, 1%nat). split; [|split_and!; [exact E1|exact Et|exact E2|exact E3|exact Et3]]. eapply (ex_hist two_ps 1 2 (fun _ => 0)); [apply two_ok|clear; intros; lia|exact Ee].
Qed.
Example C41_example : (do e <- ex_env ex_ps 2 ex_map (0, 0, 0) (2, 2, 0); do r <- lLazySuccs e 0 []; do c <- lTrueCost r.2 0 2; do r2 <- lLazyPreds r.2 2 []; Ok (r.1.1, c, r2.1.1)) =
  Ok ([(2%nat, 10); (3%nat, 5)], 40, [(0%nat, 10); (4%nat, 5)]).
Proof. vm_compute. reflexivity. Qed.

(** ** C42: GetActionsFromStateIDPath. *)
(** It succeeds exactly on the paths of edges that do not pass through the goal, and then gives a cheapest primitive for every step. *)
Theorem C42_actions N k ps e s g path : hist N k ps e s g -> (forall id, id ∈ path -> exists u, at_pose e id u) ->
  ((exists acts e', lActions e path = Ok (acts, e')) <->
   forall n a b u v, path !! n = Some a -> path !! S n = Some b -> at_pose e a u -> at_pose e b v -> a <> lGoal e /\ exists p c, edge N ps e p u v c) /\
  forall acts e', lActions e path = Ok (acts, e') -> length acts = pred (length path) /\
    forall n a b t u v, path !! n = Some a -> path !! S n = Some b -> acts !! n = Some t -> at_pose e a u -> at_pose e b v ->
      exists p c, Z.of_nat t.1 = u.2 /\ of_angle u.2 ps !! t.2 = Some p /\ edge N ps e p u v c /\ forall p' c', edge N ps e p' u v c' -> c <= c'.
Proof.
  intros Hh Hid. pose proof (hist_prims _ _ _ _ _ _ Hh) as OKp. destruct (hist_sane N k ps OKp e s g Hh) as [[Ge _ _] _].
  split; [split|].
  - intros (acts & e' & E). eapply lActions_conv; eauto.
  - intros Hst. destruct (lActions_spec N k ps OKp path e Ge Hid Hst) as (acts & e' & E & _). eauto.
  - intros acts e' E. destruct (lActions_spec N k ps OKp path e Ge Hid) as (acts' & e2 & E2 & _ & _ & L & H). { eapply lActions_conv; eauto. }
    rewrite E in E2. injection E2 as <- <-. done.
Qed.
Example C42_example : (do e <- ex_env two_ps 1 (fun _ => 0) (0, 0, 0) (2, 0, 0); do r <- lSuccs e 0; do a <- lActions r.2 [0; 2; 1]%nat; Ok a.1) = Ok [(0, 1); (0, 1)]%nat.
Proof. vm_compute. reflexivity. Qed.

(** ** C43: the heuristic is computed from the current map, start and goal. *)
(** Whatever was called before: after EnsureHeuristicsUpdated, the last 2D search ran on the current map with the current goal and start. *)
Theorem C43_fresh N k ps e s g b e' : hist N k ps e s g -> perform e (CEnsure b) = Ok e' ->
  searched e (CEnsure b) b (if b then g else s) =
    Some (lGrid e', cInsc (lC e'), if b then (lGoalC e').1 else (lStartC e').1, if b then (lStartC e').1 else (lGoalC e').1) /\
  lGrid e' = lGrid e /\ lStartC e' = lStartC e /\ lGoalC e' = lGoalC e /\ at_pose e' (lStart e') (lStartC e') /\ at_pose e' (lGoal e') (lGoalC e').
Proof.
  intros Hh E. pose proof (hist_prims _ _ _ _ _ _ Hh) as OKp. destruct (hist_sane N k ps OKp e s g Hh) as [S T].
  destruct (perform_spec N k ps OKp e (CEnsure b) S Logic.I) as (e2 & E2 & S2 & _ & T2). rewrite E in E2. injection E2 as <-. specialize (T2 s g T).
  simpl in E. injection E as <-. split; [|split_and!; try apply S2; unfold lEnsure; destruct b; [destruct (lNeedG e)|destruct (lNeedS e)|destruct (lNeedG e)|destruct (lNeedS e)|destruct (lNeedG e)|destruct (lNeedS e)]; done].
  unfold tracks, args_start, args_goal in T2. destruct T2 as [TS TG].
  destruct b.
  - apply TG. unfold lEnsure. by destruct (lNeedG e) eqn:Q.
  - apply TS. unfold lEnsure. by destruct (lNeedS e) eqn:Q.
Qed.
(** And no search is run twice for the same question. *)
Theorem C43_once e b : (lEnsure (lEnsure e b).2 b).1 = None.
Proof. unfold lEnsure. destruct b; [destruct (lNeedG e) eqn:Q|destruct (lNeedS e) eqn:Q]; simpl; by rewrite ?Q. Qed.

(** ** C44: the tables built from the motion primitives. *)
Theorem C44_tables N k ps W H nonuni obs insc circ poly : prims_ok N k ps ->
  exists c, precompute W H N nonuni obs insc circ poly ps = Ok c /\ cN c = N /\ cWidth c = k /\ cW c = W /\ cH c = H /\ cObs c = obs /\ cInsc c = insc /\ cCirc c = circ /\ cPoly c = poly /\
    (* an action for every primitive, in order *)
    (forall t i p, 0 <= t < N -> of_angle t ps !! i = Some p -> exists a, act_at c t i = Ok a /\
       aStart a = pStart p /\ aDX a = pX p /\ aDY a = pY p /\ aEnd a = pEnd p /\ aCost a = pCost p /\ aInterm a = pInterm p /\ aInter a = pInter p) /\
    (* the predecessor actions of an angle are those that end in it, each once *)
    (forall t, 0 <= t < N -> exists l, preds_at c t = Ok l /\ NoDup l /\ forall u i, (u, i) ∈ l <-> exists p, of_angle (Z.of_nat u) ps !! i = Some p /\ pEnd p mod N = t) /\
    (* the affected states of the cell (0, 0) *)
    (forall x y t, (x, y, t) ∈ cAffected c <-> exists p o, p ∈ ps /\ t = pStart p /\ (o = (0, 0) \/ o = (pX p, pY p) \/ o ∈ pInter p) /\ shift (x, y) o = (0, 0)).
Proof.
  intros OKp. destruct (precompute_ok N k ps OKp W H nonuni obs insc circ poly) as (c & E & [C1 C2 C3 _ C4 C5] & HW & HH & HO & HI & HC & HP).
  exists c. split_and!; try done. intros x y t. rewrite C5. simpl. split.
  - intros (p & Pin & -> & Ho).
    assert (OO : exists o, (o = (0, 0) \/ o = (pX p, pY p) \/ o ∈ pInter p) /\ (x, y) = (- o.1, - o.2)).
    { destruct Ho as [-> |[-> |(o & Ho & ->)]]; [exists (0, 0); split; [by left|done]|exists (pX p, pY p); split; [by right; left|done]|exists o; split; [by right; right|done]]. }
    destruct OO as (o & Ho' & [= -> ->]). exists p, o. split_and!; try done. unfold shift. simpl. f_equal; lia.
  - intros (p & o & Pin & -> & Ho & Hs). exists p. split_and!; [done|done|]. unfold shift in Hs. simpl in Hs. injection Hs as H1 H2.
    assert (Exy : (x, y) = (- o.1, - o.2)) by (f_equal; lia). rewrite Exy. destruct Ho as [-> |[-> |Ho]]; simpl; [by left|by right; left|right; right; eauto].
Qed.
(** Primitives that are not uniform are written outside the table before the check that rejects them; a start angle that does not exist is not noticed, and an action is used that was never filled in; and
    with more than 128 angles, the angle of a state becomes negative and its successors are read from before the table. *)
Theorem C44_nonuniform_refuted : precompute 3 3 2 false 254 253 250 true [mkPrim 0 1 0 0 10 [] []; mkPrim 0 0 0 1 10 [] []] = UB.
Proof. vm_compute. reflexivity. Qed.
Theorem C44_unknown_angle_refuted : precompute 3 3 2 false 254 253 250 true [mkPrim 0 1 0 0 10 [] []; mkPrim 5 0 0 1 10 [] []] = UB.
Proof. vm_compute. reflexivity. Qed.
Theorem C44_many_angles_refuted : exists ps, (forall t, 0 <= t < 200 -> length (of_angle t ps) = 1%nat) /\
  exists e, ex_env ps 200 (fun _ => 0) (0, 0, 150) (2, 2, 0) = Ok e /\ lSuccs e 0 = UB.
Proof.
  exists ((fun t => mkPrim t 1 0 0 10 [] []) <$> seqZ 0 200). split.
  - intros t Ht. assert (A : forallb (fun t => (length (of_angle t ((fun t => mkPrim t 1 0 0 10 [] []) <$> seqZ 0 200)) =? 1)%nat) (seqZ 0 200) = true) by (vm_compute; reflexivity).
    rewrite forallb_forall in A. apply Nat.eqb_eq. apply A. apply elem_of_list_In, elem_of_seqZ. lia.
  - assert (E : match ex_env ((fun t => mkPrim t 1 0 0 10 [] []) <$> seqZ 0 200) 200 (fun _ => 0) (0, 0, 150) (2, 2, 0) with Ok e => match lSuccs e 0 with UB => true | _ => false end | _ => false end = true) by (vm_compute; reflexivity).
    destruct (ex_env _ _ _ _ _) as [e| | |]; try done. exists e. split; [done|]. by destruct (lSuccs e 0).
Qed.

Print Assumptions C37_total.
Print Assumptions C37_persistent.
Print Assumptions C38_converse.
Print Assumptions C40_complete.
Print Assumptions C42_actions.
Print Assumptions C43_fresh.
Print Assumptions C44_tables.
