(** C63 - C66: the (x, y, theta) lattice environment with additional levels. *)
From Verif Require Import Base NavModel LatModel LatSpec LatProofs LatProofs2 LatProofs3 LatProofs4 LatProofs5 LatProps MlevModel MlevSpec MlevProofs MlevProofs2 MlevProofs3.
Local Open Scope Z_scope.

(** ** A concrete object: the environment of LatProps.v with two additional levels.  The second has a polygon that sweeps the cell above the robot, and an obstacle in (2, 1). *)
Definition ex_lev (poly : bool) (cs : list (Z * Z)) : levspec := mkSpec poly (fun _ _ => cs) 253 100.
Definition ex_mlev : lres mlev :=
  do e <- ex_env ex_ps 2 ex_map (0, 0, 0) (2, 2, 0);
  do r <- mUpdLev (mInitLevs (mNew e) [ex_lev false []; ex_lev true [(0, 1)]]) 2 1 254 1;
  do r <- mUpdLev r.2 1 0 7 0; Ok r.2.
Lemma upd_mhist N k ps s x y v lev b s' : mhist N k ps s -> 0 <= v <= 255 -> mUpdLev s x y v lev = Ok (b, s') -> mhist N k ps s'.
Proof.
  intros Hh Hv E. destruct (mhist_sane _ _ _ _ Hh) as (_ & _ & [_ L _]). eapply (mh_call _ _ _ s (MUpd x y v lev)); [done| |cbn [mperform]; by rewrite E].
  unfold mUpdLev in E. destruct (mLevs s !! lev) as [l|] eqn:El; [|done]. destruct (vGrid l !! (x, y)) eqn:G; [|done].
  pose proof (elem_of_list_lookup_2 _ _ _ El) as Hl. apply (lo_grid _ _ _ _ _ (L l Hl)) in G. apply lookup_lt_Some in El. simpl. tauto.
Qed.
Lemma init_mhist N k ps e ys : (k <= 256)%nat -> hist N k ps e None None -> mhist N k ps (mInitLevs (mNew e) ys).
Proof. intros K Hh. eapply (mh_call _ _ _ (mNew e) (MInit _)); [|done|reflexivity]. by apply mh_init. Qed.
Lemma ex_mhist s : ex_mlev = Ok s -> mhist 2 2 ex_ps s.
Proof.
  unfold ex_mlev. intros E. apply obind_ok in E as (e & Ee & E). pose proof (ex_hist ex_ps 2 2 ex_map _ _ e ex_ok ex_map_ok Ee) as Hh.
  apply obind_ok in E as ([b1 s1] & E1 & E). apply obind_ok in E as ([b2 s2] & E2 & E). simpl snd in E2, E. injection E as <-.
  eapply upd_mhist; [| |exact E2]; [|clear; lia]. eapply upd_mhist; [| |exact E1]; [|clear; lia]. apply init_mhist; [lia|done].
Qed.

(** ** C63: cells and maps. *)
(** No allowed call on any history fails, and ids and their poses stay. *)
Theorem C63_total N k ps s a : mhist N k ps s -> mallowed s a ->
  exists s', mperform s a = Ok s' /\ mhist N k ps s' /\ forall id u, at_pose (mB s) id u -> at_pose (mB s') id u.
Proof.
  intros Hh Ha. destruct (mhist_sane _ _ _ _ Hh) as (OKp & K & M). destruct (mperform_spec N k ps OKp K s a M Ha) as (s' & E & _ & _ & Kp). exists s'. split_and!; [done| |done]. by eapply mh_call.
Qed.
(** IsValidCell(x, y): the cell is in the map and free at all levels; IsValidCell(x, y, level): it is in the map and free at that level; there are no cells at levels that do not exist. *)
Theorem C63_valid N k ps s x y : mhist N k ps s ->
  (exists b, mValid (mLevs s) (mB s) x y = Ok b /\ (b = true <-> mfree (mLevs s) (mB s) (x, y))) /\
  (forall lev l, mLevs s !! lev = Some l -> exists b, mValidLev (mLevs s) (mB s) x y lev = Ok b /\ (b = true <-> free (vGrid l) (cObs (lC (mB s))) (x, y))) /\
  (forall lev, (length (mLevs s) <= lev)%nat -> mValidLev (mLevs s) (mB s) x y lev = Ok false).
Proof.
  intros Hh. destruct (mhist_sane _ _ _ _ Hh) as (OKp & K & [[[I C] _ _] L _]). split_and!.
  - by apply (mValid_spec (mB s) I N k).
  - intros lev l El. by apply (mValidLev_spec (mB s) I N k).
  - intros lev Hl. unfold mValidLev. destruct (lWithin (mB s) x y); simpl; [|done]. by rewrite (lookup_ge_None_2 _ _ Hl).
Qed.
(** IsObstacle and GetMapCost of a cell of the map: an obstacle at some level, the greatest cost of all levels. *)
Theorem C63_obstacle N k ps s x y : mhist N k ps s -> 0 <= x < cW (lC (mB s)) -> 0 <= y < cH (lC (mB s)) ->
  (exists b, mObstacle (mLevs s) (mB s) x y = Ok b /\ (b = true <-> ~ mfree (mLevs s) (mB s) (x, y))) /\
  (forall lev l, mLevs s !! lev = Some l -> exists b, mObstacleLev (mLevs s) (mB s) x y lev = Ok b /\ (b = true <-> ~ free (vGrid l) (cObs (lC (mB s))) (x, y))).
Proof.
  intros Hh Hx Hy. destruct (mhist_sane _ _ _ _ Hh) as (OKp & K & [[[I C] _ _] L _]). assert (Hw : lWithin (mB s) x y = true) by (by apply lWithin_iff).
  set (obs := cObs (lC (mB s))).
  assert (LV : forall ls, (forall l, l ∈ ls -> l ∈ mLevs s) -> exists b, levs_obst obs ls x y = Ok b /\ (b = true <-> ~ forall l, l ∈ ls -> free (vGrid l) obs (x, y))).
  { induction ls as [|l ls IH]; intros Hs; simpl.
    - exists false. split; [done|]. split; [done|]. intros F. destruct F. intros l Hl. by apply elem_of_nil in Hl.
    - destruct (vrd_in (mB s) I N k (mLevs s) L l x y) as (v & E & G & _); [apply Hs; left|done|]. rewrite E. simpl. destruct (v >=? obs) eqn:Q.
      + exists true. split; [done|]. split; [|done]. intros _ F. destruct (F l) as (v' & G' & L'); [left|]. rewrite G in G'. injection G' as <-. lia.
      + destruct IH as (b & Eb & Hb). { intros l' Hl'. apply Hs. by right. }
        exists b. split; [done|]. rewrite Hb. split; intros F1 F2; apply F1.
        * intros l' Hl'. apply F2. by right.
        * intros l' [-> |Hl']%elem_of_cons; [|auto]. exists v. split; [done|lia]. }
  split.
  - unfold mObstacle, lrd. destruct (proj1 (li_grid _ I) x y Hx Hy) as [v G]. rewrite G. simpl. fold obs. destruct (v >=? obs) eqn:Q.
    + exists true. split; [done|]. split; [|done]. intros _ [(v' & G' & L') _]. rewrite G in G'. injection G' as <-. fold obs in L'. lia.
    + destruct (LV (mLevs s)) as (b & Eb & Hb); [done|]. exists b. split; [done|]. rewrite Hb. unfold mfree. fold obs. split; intros F1 F2; apply F1; [apply F2|].
      split; [|done]. exists v. split; [done|lia].
  - intros lev l El. unfold mObstacleLev. rewrite El. destruct (vrd_in (mB s) I N k (mLevs s) L l x y) as (v & E & G & _); [by eapply elem_of_list_lookup_2|done|]. rewrite E. simpl. fold obs.
    exists (v >=? obs). split; [done|]. unfold free. rewrite G. split.
    + intros Q (v' & [= <-] & L'). lia.
    + intros F. destruct (v >=? obs) eqn:Q; [done|]. destruct F. exists v. split; [done|lia].
Qed.
Theorem C63_map_cost N k ps s x y : mhist N k ps s -> 0 <= x < cW (lC (mB s)) -> 0 <= y < cH (lC (mB s)) ->
  (exists m, mMapCost (mLevs s) (mB s) x y = Ok m /\ (lGrid (mB s) !! (x, y) = Some m \/ exists l, l ∈ mLevs s /\ vGrid l !! (x, y) = Some m) /\
     forall v, lGrid (mB s) !! (x, y) = Some v \/ (exists l, l ∈ mLevs s /\ vGrid l !! (x, y) = Some v) -> v <= m) /\
  (forall lev l, mLevs s !! lev = Some l -> exists v, mMapCostLev (mLevs s) x y lev = Ok v /\ vGrid l !! (x, y) = Some v).
Proof.
  intros Hh Hx Hy. destruct (mhist_sane _ _ _ _ Hh) as (OKp & K & [[[I C] _ _] L _]). assert (Hw : lWithin (mB s) x y = true) by (by apply lWithin_iff). split.
  - assert (LV : forall ls m0, (forall l, l ∈ ls -> l ∈ mLevs s) -> exists m, levs_max ls x y m0 = Ok m /\ (m = m0 \/ exists l, l ∈ ls /\ vGrid l !! (x, y) = Some m) /\ m0 <= m /\ forall l v, l ∈ ls -> vGrid l !! (x, y) = Some v -> v <= m).
    { induction ls as [|l ls IH]; intros m0 Hs; simpl.
      - exists m0. split_and!; [done|by left|lia|]. intros l v Hl. by apply elem_of_nil in Hl.
      - destruct (vrd_in (mB s) I N k (mLevs s) L l x y) as (v & E & G & _); [apply Hs; left|done|]. rewrite E. simpl.
        destruct (IH (Z.max m0 v)) as (m & Em & Hm & Hle & Hub). { intros l' Hl'. apply Hs. by right. }
        exists m. split_and!; [done| |lia|].
        + destruct Hm as [-> |(l' & Hl' & G')]; [|right; exists l'; split; [by right|done]]. destruct (Z.max_spec m0 v) as [[_ ->]|[_ ->]]; [|by left]. right. exists l. split; [left|done].
        + intros l' v' [-> |Hl']%elem_of_cons G'; [|eauto]. rewrite G in G'. injection G' as <-. lia. }
    unfold mMapCost, lrd. destruct (proj1 (li_grid _ I) x y Hx Hy) as [v G]. rewrite G. simpl. destruct (LV (mLevs s) v) as (m & Em & Hm & Hle & Hub); [done|]. exists m. split_and!; [done| |].
    + destruct Hm as [-> |?]; [by left|by right].
    + intros v' [[= <-]|(l & Hl & G')]; [done|eauto].
  - intros lev l El. unfold mMapCostLev. rewrite El. destruct (vrd_in (mB s) I N k (mLevs s) L l x y) as (v & E & G & _); [by eapply elem_of_list_lookup_2|done|]. eauto.
Qed.
(** InitializeAdditionalLevels: the levels asked for, with empty maps; nothing else changes. *)
Theorem C63_init N k ps s ys : mhist N k ps s ->
  mB (mInitLevs s ys) = mB s /\ mAlloc (mInitLevs s ys) = true /\ length (mLevs (mInitLevs s ys)) = length ys /\
  forall lev y, ys !! lev = Some y -> exists l, mLevs (mInitLevs s ys) !! lev = Some l /\ vInsc l = yInsc y /\ vCirc l = yCirc y /\ vPoly l = yPoly y /\
    (forall c, vGrid l !! c = if decide (0 <= c.1 < cW (lC (mB s)) /\ 0 <= c.2 < cH (lC (mB s))) then Some 0 else None) /\
    forall t i, 0 <= t < N -> (i < k)%nat -> swept l t i = yCells y (Z.to_nat t) i.
Proof.
  intros Hh. destruct (mhist_sane _ _ _ _ Hh) as (OKp & K & [[[I C] _ _] L _]). split_and!; [done|done|by simpl; rewrite fmap_length|].
  intros lev y Ey. simpl. rewrite list_lookup_fmap, Ey. simpl. eexists. split; [done|]. split_and!; simpl; try done.
  - intros [x y']. rewrite gridof_lookup. done.
  - intros t i Ht Hi. unfold swept. simpl. rewrite list_lookup_fmap, (co_N _ _ _ _ C), (co_k _ _ _ _ C), lookup_seq_lt by lia. simpl. rewrite list_lookup_fmap, lookup_seq_lt by lia. done.
Qed.
(** Set2DMapforAddLev: false, and no change, before the levels exist; then the given map at the given level, and nothing else changes.  UpdateCostinAddLev: one cell of one level. *)
Theorem C63_set N k ps s m lev : mhist N k ps s ->
  (mAlloc s = false -> mSetLev s m lev = Ok (false, s)) /\
  (forall l, mAlloc s = true -> mLevs s !! lev = Some l -> exists s', mSetLev s m lev = Ok (true, s') /\ mB s' = mB s /\ mAlloc s' = true /\ length (mLevs s') = length (mLevs s) /\
     (forall lev', lev' <> lev -> mLevs s' !! lev' = mLevs s !! lev') /\
     exists l', mLevs s' !! lev = Some l' /\ vInsc l' = vInsc l /\ vCirc l' = vCirc l /\ vPoly l' = vPoly l /\ vCells l' = vCells l /\
       forall x y, vGrid l' !! (x, y) = if decide (0 <= x < cW (lC (mB s)) /\ 0 <= y < cH (lC (mB s))) then Some (m (x + y * cW (lC (mB s)))) else None).
Proof.
  intros Hh. split; intros *; unfold mSetLev; [by intros -> |]. intros -> El. simpl. rewrite El. eexists. split; [done|]. simpl. split_and!; [done|done|apply insert_length|intros; by apply list_lookup_insert_ne|].
  eexists. split; [apply list_lookup_insert; by eapply lookup_lt_Some|]. simpl. split_and!; try done. intros x y. rewrite gridof_lookup. done.
Qed.
Theorem C63_update N k ps s x y v lev l : mhist N k ps s -> mLevs s !! lev = Some l -> 0 <= x < cW (lC (mB s)) -> 0 <= y < cH (lC (mB s)) ->
  exists s', mUpdLev s x y v lev = Ok (true, s') /\ mB s' = mB s /\ mAlloc s' = mAlloc s /\ length (mLevs s') = length (mLevs s) /\
    (forall lev', lev' <> lev -> mLevs s' !! lev' = mLevs s !! lev') /\
    exists l', mLevs s' !! lev = Some l' /\ vInsc l' = vInsc l /\ vCirc l' = vCirc l /\ vPoly l' = vPoly l /\ vCells l' = vCells l /\
      forall c, vGrid l' !! c = if decide (c = (x, y)) then Some v else vGrid l !! c.
Proof.
  intros Hh El Hx Hy. destruct (mhist_sane _ _ _ _ Hh) as (OKp & K & [[[I C] _ _] L _]). unfold mUpdLev. rewrite El.
  destruct (proj1 (lo_grid _ _ _ _ _ (L l (elem_of_list_lookup_2 _ _ _ El))) x y Hx Hy) as [v0 ->]. eexists. split; [done|]. simpl. split_and!; [done|done|apply insert_length|intros; by apply list_lookup_insert_ne|].
  eexists. split; [apply list_lookup_insert; by eapply lookup_lt_Some|]. simpl. split_and!; try done. intros c. case_decide as D; [subst; apply lookup_insert|by apply lookup_insert_ne].
Qed.
Example C63_example : (do s <- ex_mlev; do a <- mValid (mLevs s) (mB s) 2 1; do b <- mValidLev (mLevs s) (mB s) 2 1 0; do c <- mMapCost (mLevs s) (mB s) 1 0; do d <- mObstacle (mLevs s) (mB s) 2 1; Ok (a, b, c, d)) = Ok (false, true, 7, true).
Proof. vm_compute. reflexivity. Qed.
Example C63_hist_example : exists s, mhist 2 2 ex_ps s /\ length (mLevs s) = 2%nat.
Proof.
  assert (E : (do s <- ex_mlev; Ok (length (mLevs s))) = Ok 2%nat) by (vm_compute; reflexivity). apply obind_ok in E as (s & Es & E). injection E as E. exists s. split; [by apply ex_mhist|done].
Qed.

(** ** C64: successors and predecessors are the edges of the multi-level graph. *)
Theorem C64_succs N k ps s id u : mhist N k ps s -> at_pose (mB s) id u -> id <> lGoal (mB s) ->
  exists l e', mSuccs (mLevs s) (mB s) id = Ok (l, e') /\ lGrid e' = lGrid (mB s) /\ lC e' = lC (mB s) /\ l.*2 `sublist_of` (pair (Z.to_nat u.2) <$> seq 0 k) /\
    (forall v c t i, (v, c, (t, i)) ∈ l -> exists w, at_pose e' v w /\ Z.of_nat t = u.2 /\ medge N ps (mLevs s) (mB s) i u w c) /\
    (forall i w c, medge N ps (mLevs s) (mB s) i u w c -> exists v, at_pose e' v w /\ (v, c, (Z.to_nat u.2, i)) ∈ l).
Proof.
  intros Hh Au Hg. destruct (mhist_sane _ _ _ _ Hh) as (OKp & K & M). pose proof (msane_good _ _ _ _ M) as MG.
  destruct (mSuccs_spec N k ps OKp K (mLevs s) (mB s) id u MG Au Hg) as (l & e' & E & _ & X & S & Hc & Hl). exists l, e'. split_and!; [done|apply X|apply X|done| |].
  - intros v c t i Hin. apply Hl in Hin as (w & Ht & Aw & Ed). simpl in Ht, Ed. exists w. split_and!; [done| |done]. pose proof (medge_angle N k ps OKp _ _ _ _ _ _ Ed). lia.
  - intros i w c Ed. destruct (Hc i w c Ed) as [v Av]. exists v. split; [done|]. apply Hl. eauto.
Qed.
Theorem C64_goal s : mSuccs (mLevs s) (mB s) (lGoal (mB s)) = Ok ([], mB s).
Proof. unfold mSuccs. by rewrite Nat.eqb_refl. Qed.
Theorem C64_preds N k ps s id v : mhist N k ps s -> at_pose (mB s) id v ->
  exists l e', mPreds (mLevs s) (mB s) id = Ok (l, e') /\ lGrid e' = lGrid (mB s) /\ lC e' = lC (mB s) /\
    (forall j c, (j, c) ∈ l -> exists u i, at_pose e' j u /\ medge N ps (mLevs s) (mB s) i u v c) /\
    (forall i u c, medge N ps (mLevs s) (mB s) i u v c -> exists j, at_pose e' j u /\ (j, c) ∈ l).
Proof.
  intros Hh Av. destruct (mhist_sane _ _ _ _ Hh) as (OKp & K & M). pose proof (msane_good _ _ _ _ M) as MG.
  destruct (mPreds_spec N k ps OKp K (mLevs s) (mB s) id v MG Av) as (l & e' & qs & E & _ & X & _ & F & _).
  destruct (mPreds_in N k ps OKp K (mLevs s) (mB s) id v MG Av) as (l' & e2 & E' & _ & _ & H). rewrite E in E'. injection E' as <- <-. exists l, e'. split_and!; [done|apply X|apply X| |].
  - intros j c Hin. apply elem_of_list_lookup in Hin as [n Hn]. destruct (Forall2_lookup_l _ _ _ _ _ F Hn) as (q & _ & u & Au & _ & Ed). eauto.
  - intros i u c Ed. apply H. eauto.
Qed.
(** Lazy successors and predecessors: the poses a primitive leads to (comes from) whose cell is free at all levels, with a cost that no edge undercuts. *)
Theorem C64_lazy_succs N k ps s id u b : mhist N k ps s -> at_pose (mB s) id u -> id <> lGoal (mB s) ->
  exists l e', mLazySuccs (mLevs s) (mB s) id b = Ok (l, b ++ replicate (length l) false, e') /\
    (forall v c, (v, c) ∈ l <-> exists i w, at_pose e' v w /\ mleads N ps (mLevs s) (mB s) i u w c) /\
    (forall i w c, medge N ps (mLevs s) (mB s) i u w c -> exists v c0, at_pose e' v w /\ (v, c0) ∈ l /\ c0 <= c).
Proof.
  intros Hh Au Hg. destruct (mhist_sane _ _ _ _ Hh) as (OKp & K & M). pose proof (msane_good _ _ _ _ M) as MG.
  destruct (mLazySuccs_spec N k ps OKp K (mLevs s) (mB s) id u b MG Au Hg) as (l & e' & E & _ & X & Hc & Hl). exists l, e'. split_and!; [done|done|].
  intros i w c Ed. pose proof (medge_end_free _ _ _ _ _ _ _ _ Ed) as Fw. destruct Ed as (p & Ep & W1 & W2 & _ & m & [Gm _] & -> & _).
  assert (Ld : mleads N ps (mLevs s) (mB s) i u w (pCost p)) by (by exists p). destruct (Hc _ _ _ Ld) as [v Av]. exists v, (pCost p). split_and!; [done|apply Hl; eauto|].
  destruct (angle_nth_in _ _ _ _ Ep) as [Pin _]. pose proof (po_cost _ _ _ OKp p Pin). pose proof (counts_range _ _ _ _ _ _ _ M Gm). nia.
Qed.
Theorem C64_lazy_preds N k ps s id v b : mhist N k ps s -> at_pose (mB s) id v ->
  exists l e', mLazyPreds (mLevs s) (mB s) id b = Ok (l, b ++ replicate (length l) false, e') /\
    (forall u c, (u, c) ∈ l <-> exists i w, at_pose e' u w /\ mleadsb N ps (mLevs s) (mB s) i w v c) /\
    (forall i w c, medge N ps (mLevs s) (mB s) i w v c -> exists u c0, at_pose e' u w /\ (u, c0) ∈ l /\ c0 <= c).
Proof.
  intros Hh Av. destruct (mhist_sane _ _ _ _ Hh) as (OKp & K & M). pose proof (msane_good _ _ _ _ M) as MG.
  destruct (mLazyPreds_spec N k ps OKp K (mLevs s) (mB s) id v b MG Av) as (l & e' & E & _ & X & Hc & Hl). exists l, e'. split_and!; [done|done|].
  intros i w c Ed. pose proof (medge_start_free _ _ _ _ _ _ _ _ Ed) as Fw. destruct Ed as (p & Ep & W1 & W2 & _ & m & [Gm _] & -> & _).
  assert (Ld : mleadsb N ps (mLevs s) (mB s) i w v (pCost p)) by (by exists p). destruct (Hc _ _ _ Ld) as [u Au]. exists u, (pCost p). split_and!; [done|apply Hl; eauto|].
  destruct (angle_nth_in _ _ _ _ Ep) as [Pin _]. pose proof (po_cost _ _ _ OKp p Pin). pose proof (counts_range _ _ _ _ _ _ _ M Gm). nia.
Qed.
(** GetTrueCost: throws exactly if no primitive leads there; otherwise the first one that does decides: the cost of its edge, or -1. *)
Theorem C64_true_cost N k ps s i j u v : mhist N k ps s -> at_pose (mB s) i u -> at_pose (mB s) j v ->
  (mTrueCost (mLevs s) (mB s) i j = Exn () <-> forall n c, ~ mleads N ps (mLevs s) (mB s) n u v c) /\
  (forall n c, mleads N ps (mLevs s) (mB s) n u v c -> (forall n' c', (n' < n)%nat -> ~ mleads N ps (mLevs s) (mB s) n' u v c') ->
    (forall c', medge N ps (mLevs s) (mB s) n u v c' -> mTrueCost (mLevs s) (mB s) i j = Ok c') /\
    ((forall c', ~ medge N ps (mLevs s) (mB s) n u v c') -> mTrueCost (mLevs s) (mB s) i j = Ok (-1))).
Proof.
  intros Hh Au Av. destruct (mhist_sane _ _ _ _ Hh) as (OKp & K & M). pose proof (msane_good _ _ _ _ M) as MG.
  destruct (mTrueCost_spec N k ps OKp K (mLevs s) (mB s) i j u v MG Au Av) as [[E H]|(n & c & L & F & R)].
  - split; [by rewrite E|]. intros n c L. by destruct (H n c L).
  - assert (NE : mTrueCost (mLevs s) (mB s) i j <> Exn ()) by (destruct R as [(? & _ & ->)|[_ ->]]; done). split.
    + split; [done|]. intros Hn. by destruct (Hn n c L).
    + intros n2 c2 L2 F2. assert (n2 = n) as ->.
      { destruct (decide (n2 < n)%nat) as [Q|Q]; [by destruct (F _ c2 Q)|]. destruct (decide (n < n2)%nat) as [Q'|Q']; [by destruct (F2 _ c Q')|]. lia. }
      destruct R as [(c1 & Ed & ->)|[Hno ->]].
      * split; [|intros Hn; by destruct (Hn c1)]. intros c' Ed'. by edestruct medge_fun as [_ ->]; [exact K|exact Ed|exact Ed'|].
      * split; [|done]. intros c' Ed'. by destruct (Hno c').
Qed.
(** Of the two successors in the one-level map, both stay; the first costs more, since its cell costs 7 at the first additional level. *)
Example C64_example : (do s <- ex_mlev; do r <- mSuccs (mLevs s) (mB s) 0; do r2 <- lSuccs (mB s) 0; Ok (r.1, r2.1)) =
  Ok ([(2%nat, 80, (0%nat, 0%nat)); (3%nat, 5, (0%nat, 1%nat))], [(2%nat, 40, (0%nat, 0%nat)); (3%nat, 5, (0%nat, 1%nat))]).
Proof. vm_compute. reflexivity. Qed.

(** ** C65: what an edge promises. *)
(** A successor: the base level and all additional levels are safe along the primitive, and the cost is at least that of the base level, and of each level's centre cells. *)
Theorem C65_promise N k ps s id u l e' v c t i : mhist N k ps s -> at_pose (mB s) id u -> mSuccs (mLevs s) (mB s) id = Ok (l, e') -> (v, c, (t, i)) ∈ l ->
  exists p, of_angle u.2 ps !! i = Some p /\ at_pose e' v (shift u.1 (pX p, pY p), pEnd p mod N) /\ pCost p <= c < INFINITECOST /\
    (exists c0, edge N ps (mB s) p u (shift u.1 (pX p, pY p), pEnd p mod N) c0 /\ c0 <= c) /\
    (forall l, l ∈ mLevs s -> safe_at (cObs (lC (mB s))) l u.1 p (swept l u.2 i)) /\
    (forall l o z, l ∈ mLevs s -> o ∈ pInterm p -> vGrid l !! shift u.1 o = Some z -> pCost p * (z + 1) <= c).
Proof.
  intros Hh Au El Hin. destruct (mhist_sane _ _ _ _ Hh) as (OKp & K & M). pose proof (msane_good _ _ _ _ M) as MG.
  assert (Hg : id <> lGoal (mB s)). { intros ->. unfold mSuccs in El. rewrite Nat.eqb_refl in El. injection El as <- <-. by apply elem_of_nil in Hin. }
  destruct (mSuccs_spec N k ps OKp K (mLevs s) (mB s) id u MG Au Hg) as (l' & e1 & E1 & _ & X1 & _ & _ & H1). rewrite El in E1. injection E1 as <- <-.
  apply H1 in Hin as (w & Ht & Aw & Ed). simpl in Ht, Ed. pose proof (medge_angle N k ps OKp _ _ _ _ _ _ Ed) as Ru. destruct Ed as (p & Ep & W1 & W2 & (X & S & B) & m & [Gm Um] & -> & Lt). exists p.
  assert (W : w = (shift u.1 (pX p, pY p), pEnd p mod N)) by (destruct w; simpl in *; congruence). rewrite W in Aw.
  destruct (angle_nth_in _ _ _ _ Ep) as [Pin Pst]. pose proof (po_cost _ _ _ OKp p Pin) as PC. pose proof (counts_range _ _ _ _ _ _ _ M Gm) as Rm.
  pose proof M as [[[I C] _ _] L _]. destruct (co_act _ _ _ _ C _ _ _ Ru Ep) as (a & Ea & Aok).
  destruct (lCost_spec (mB s) I u.1.1 u.1.2 a p Aok PC) as (c0 & _ & [(_ & m0 & [G0 U0] & _)|[nX _]]); rewrite <- (surjective_pairing u.1) in *; [|done].
  assert (m0 <= m). { apply Um. destruct G0 as (q & [-> |[-> |(o & Ho & ->)]] & Gq); [by left|by right; left|right; right; exists o; split; [done|by left]]. }
  assert (0 <= m0). { destruct G0 as ([x y] & _ & Gq). apply (li_grid _ I) in Gq. tauto. }
  split_and!; [done|done|nia|done| |done|].
  - exists (pCost p * (m0 + 1)). split; [|nia]. split_and!; try done. exists m0. split_and!; [done|done|nia].
  - intros l0 o z Hl0 Ho Gz. assert (z <= m) by (apply Um; right; right; exists o; split; [done|right; eauto]). nia.
Qed.
(** Without additional levels the graph is that of the base class. *)
Theorem C65_no_levels N ps e i u v c : medge N ps [] e i u v c <-> exists p, of_angle u.2 ps !! i = Some p /\ edge N ps e p u v c.
Proof.
  split.
  - intros (p & Ep & W1 & W2 & (X & _ & _) & m & [Gm Um] & Ec & Lt). exists p. split; [done|]. destruct (angle_nth_in _ _ _ _ Ep) as [Pin Pst]. split_and!; try done. exists m. split_and!; [|done|done].
    split.
    + destruct Gm as [G|[G|(o & Ho & [G|(l & Hl & _)])]]; [exists u.1; auto|eexists; split; [|exact G]; auto|eexists; split; [|exact G]; eauto|by apply elem_of_nil in Hl].
    + intros q z [-> |[-> |(o & Ho & ->)]] G; apply Um; [by left|by right; left|right; right; exists o; split; [done|by left]].
  - intros (p & Ep & Pin & Pst & W1 & W2 & X & m & [(q & Hq & Gq) Um] & Ec & Lt). exists p. split_and!; try done.
    + split_and!; [done| |]. * intros l Hl. by apply elem_of_nil in Hl. * intros _ _ l o Hl. by apply elem_of_nil in Hl.
    + exists m. split_and!; [|done|done]. split.
      * destruct Hq as [-> |[-> |(o & Ho & ->)]]; [by left|by right; left|right; right; exists o; split; [done|by left]].
      * intros z [G|[G|(o & Ho & [G|(l & Hl & _)])]]; [by eapply (Um u.1); [left|]|eapply Um; [|exact G]; auto|eapply Um; [|exact G]; eauto|by apply elem_of_nil in Hl].
Qed.
(** More obstacles, or a further level, never add an edge or make one cheaper: the edges of an object are edges of the object with only some of its levels. *)
Theorem C65_fewer_levels N k ps s ls i u v c : mhist N k ps s -> ls ⊆ mLevs s -> medge N ps (mLevs s) (mB s) i u v c -> exists c0, medge N ps ls (mB s) i u v c0 /\ c0 <= c.
Proof.
  intros Hh Els Ed. destruct (mhist_sane _ _ _ _ Hh) as (OKp & K & M). pose proof M as [[[I C] _ _] L _]. pose proof (medge_angle N k ps OKp _ _ _ _ _ _ Ed) as Ru.
  destruct Ed as (p & Ep & W1 & W2 & (X & S & B) & m & [Gm Um] & -> & Lt). destruct (angle_nth_in _ _ _ _ Ep) as [Pin Pst]. pose proof (po_cost _ _ _ OKp p Pin) as PC. destruct (co_act _ _ _ _ C _ _ _ Ru Ep) as (a & Ea & Aok).
  destruct (mind N k ps OKp K (mB s) _ _ _ _ (mkGood _ _ _ _ I C) Ru Ep Ea) as [Hi Ei].
  assert (X' : mexec ls (mB s) u.1 u.2 i p). { split_and!; [done|auto|]. intros H1 H2 l o Hl. by apply B; [..|apply Els]. }
  destruct (mCost_spec (mB s) I N k ls (fun l Hl => L l (Els l Hl)) u.1.1 u.1.2 a p i Aok PC (po_start _ _ _ OKp p Pin) Hi Ei) as (c0 & _ & [(_ & m0 & [G0 U0] & _)|[nX _]]);
    rewrite <- (surjective_pairing u.1) in *; [|by rewrite Pst in nX].
  assert (m0 <= m). { apply Um. destruct G0 as [?|[?|(o & Ho & [?|(l & Hl & ?)])]]; [by left|by right; left|right; right; exists o; split; [done|by left]|right; right; exists o; split; [done|right; exists l; auto]]. }
  exists (pCost p * (m0 + 1)). split; [|nia]. exists p. split_and!; try done. exists m0. split_and!; [done|done|nia].
Qed.
Example C65_example : exists s l e' v c t i, mhist 2 2 ex_ps s /\ mSuccs (mLevs s) (mB s) 0 = Ok (l, e') /\ (v, c, (t, i)) ∈ l /\ (exists u, at_pose (mB s) 0 u) /\ c = 80.
Proof.
  assert (E : (do s <- ex_mlev; do r <- mSuccs (mLevs s) (mB s) 0; Ok (r.1, pose_of <$> lTab (mB s) !! 0%nat)) = Ok ([(2%nat, 80, (0%nat, 0%nat)); (3%nat, 5, (0%nat, 1%nat))], Some (0, 0, 0))) by (vm_compute; reflexivity).
  apply obind_ok in E as (s & Es & E). apply obind_ok in E as ([l e'] & E1 & E). simpl fst in E. injection E as -> E2.
  exists s, [(2%nat, 80, (0%nat, 0%nat)); (3%nat, 5, (0%nat, 1%nat))], e', 2%nat, 80, 0%nat, 0%nat. split_and!; [by apply ex_mhist|done|left| |done].
  exists (0, 0, 0). unfold at_pose. destruct (lTab (mB s) !! 0%nat) as [en|]; [|done]. injection E2 as E2 E3 E4. exists en. split; [done|]. unfold pose_of. by rewrite E2, E3, E4.
Qed.

(** The cells that the base footprint sweeps are tested at all levels: a motion that is safe at every level, each with its own footprint, is no edge because of an obstacle that only the additional
    level's map has, where only the base footprint passes. *)
Definition ov_ps : list prim := [mkPrim 0 1 0 0 10 [(0, 0); (1, 0)] [(0, 1)]].
Lemma ov_ok : prims_ok 1 1 ov_ps.
Proof.
  split; try (intros p Hp; unfold ov_ps in Hp; repeat (apply elem_of_cons in Hp as [-> |Hp]; [simpl; lia|]); by apply elem_of_nil in Hp); [lia|].
  intros t Ht. assert (t = 0) as -> by lia. reflexivity.
Qed.
Definition ov_map (i : Z) : Z := if i =? 1 then 250 else 0.
Definition ov_mlev : lres mlev :=
  do e <- ex_env ov_ps 1 ov_map (0, 0, 0) (2, 2, 0); do r <- mUpdLev (mInitLevs (mNew e) [ex_lev true [(0, 0); (1, 0)]]) 0 1 254 0; Ok r.2.
Theorem C65_other_footprint_refuted : exists N k ps s l0 p, mhist N k ps s /\ mLevs s = [l0] /\ of_angle 0 ps !! 0%nat = Some p /\ at_pose (mB s) 0 (0, 0, 0) /\
  executable (lGrid (mB s)) (cObs (lC (mB s))) (cInsc (lC (mB s))) (cCirc (lC (mB s))) (cPoly (lC (mB s))) (0, 0) p /\ safe_at (cObs (lC (mB s))) l0 (0, 0) p (swept l0 0 0) /\
  exists e', mSuccs (mLevs s) (mB s) 0 = Ok ([], e').
Proof.
  assert (E : (do e <- ex_env ov_ps 1 ov_map (0, 0, 0) (2, 2, 0); do r0 <- mUpdLev (mInitLevs (mNew e) [ex_lev true [(0, 0); (1, 0)]]) 0 1 254 0; do r <- mSuccs (mLevs r0.2) (mB r0.2) 0;
    Ok (r.1, pose_of <$> lTab (mB r0.2) !! 0%nat, [lGrid (mB r0.2) !! (0, 0); lGrid (mB r0.2) !! (1, 0); lGrid (mB r0.2) !! (0, 1)], (cObs (lC (mB r0.2)), cInsc (lC (mB r0.2))),
        map (fun l => (vGrid l !! (0, 0), vGrid l !! (1, 0), vInsc l, vCirc l)) (mLevs r0.2))) =
    Ok ([], Some (0, 0, 0), [Some 0; Some 250; Some 0], (254, 253), [(Some 0, Some 0, 253, 100)])) by (vm_compute; reflexivity).
  apply obind_ok in E as (e & Ee & E). apply obind_ok in E as ([b s] & E0 & E). simpl snd in E. apply obind_ok in E as ([l e'] & E1 & E). simpl fst in E. injection E as -> Ep G1 G2 G3 EO EI EL.
  assert (M : mhist 1 1 ov_ps s).
  { eapply upd_mhist; [| |exact E0]; [|clear; lia]. apply init_mhist; [lia|]. eapply (ex_hist ov_ps 1 1 ov_map); [apply ov_ok| |exact Ee]. intros i. unfold ov_map. destruct (i =? 1); lia. }
  clear E0 Ee. destruct (mLevs s) as [|l0 [|]] eqn:Els; simpl in EL; [done| |done]. injection EL as L1 L2 L3 L4.
  exists 1, 1%nat, ov_ps, s, l0, (mkPrim 0 1 0 0 10 [(0, 0); (1, 0)] [(0, 1)]). rewrite EO, EI. split_and!; [exact M|done|reflexivity| | | |exists e'; rewrite Els; exact E1].
  - unfold at_pose. destruct (lTab (mB s) !! 0%nat) as [en|]; [|done]. exists en. split; [done|]. simpl in Ep. congruence.
  - unfold executable, free, shift. simpl. split_and!.
    + exists 0. split; [done|lia]. + exists 250. split; [done|lia]. + intros v G. assert (Some v = Some 250) as [= ->] by (rewrite <- G; exact G2). lia.
    + intros o [-> |[-> |Ho%elem_of_nil]%elem_of_cons]%elem_of_cons; [exists 0; split; [done|lia]|exists 250; split; [done|lia]|done].
    + intros _ _ o Ho%elem_of_list_singleton. subst o. exists 0. split; [done|lia].
  - unfold safe_at, free, shift. simpl. rewrite L3, L4. split_and!.
    + exists 0. split; [done|lia]. + exists 0. split; [done|lia]. + intros v G. assert (Some v = Some 0) as [= ->] by (rewrite <- G; exact L2). lia.
    + intros o [-> |[-> |Ho%elem_of_nil]%elem_of_cons]%elem_of_cons; [exists 0; split; [done|lia]|exists 0; split; [done|lia]|done].
    + intros _ [|(o & v & Ho & G & Hv)]; [lia|]. exfalso. apply elem_of_cons in Ho as [-> |[-> |Ho%elem_of_nil]%elem_of_cons]; [assert (Some v = Some 0) as [= ->] by (rewrite <- G; exact L1)|assert (Some v = Some 0) as [= ->] by (rewrite <- G; exact L2)|done]; lia.
Qed.
(** With more than 256 primitives for an angle, the number of a primitive does not fit in a byte: the cells swept by primitive 0 are looked at instead of those of primitive 256, which sweeps an obstacle. *)
Definition many_ps : list prim := replicate 257 (mkPrim 0 1 0 0 10 [(0, 0)] []).
Definition many_lev : levspec := mkSpec true (fun _ i => if (i =? 256)%nat then [(0, 1)] else []) 253 0.
Theorem C65_many_primitives_refuted : exists ps e b s l e' v c, prims_ok 1 257 ps /\ hist 1 257 ps e None None /\ mUpdLev (mInitLevs (mNew e) [many_lev]) 0 1 254 0 = Ok (b, s) /\ mSuccs (mLevs s) (mB s) 0 = Ok (l, e') /\ (v, c, (0%nat, 256%nat)) ∈ l /\ (forall l0, mLevs s !! 0%nat = Some l0 -> swept l0 0 256 = [(0, 1)] /\ vGrid l0 !! (0, 1) = Some 254).
Proof.
  exists many_ps.
  assert (OK : prims_ok 1 257 many_ps).
  { split; try (intros p Hp; unfold many_ps in Hp; apply elem_of_replicate in Hp as [-> _]; simpl; lia); [lia|]. intros t Ht. assert (t = 0) as -> by lia. vm_compute. reflexivity. }
  assert (E : (do e <- ex_env many_ps 1 (fun _ => 0) (0, 0, 0) (2, 2, 0); do r0 <- mUpdLev (mInitLevs (mNew e) [many_lev]) 0 1 254 0; do r <- mSuccs (mLevs r0.2) (mB r0.2) 0;
    Ok (r.1 !! 256%nat, map (fun l0 => (swept l0 0 256, vGrid l0 !! (0, 1))) (mLevs r0.2))) = Ok (Some (2%nat, 10, (0%nat, 256%nat)), [([(0, 1)], Some 254)])) by (vm_compute; reflexivity).
  apply obind_ok in E as (e & Ee & E). apply obind_ok in E as ([b s] & E0 & E). simpl snd in E. apply obind_ok in E as ([l e'] & E1 & E). simpl fst in E. injection E as E2 E3.
  exists e, b, s, l, e', 2%nat, 10. split_and!; [exact OK| |exact E0|exact E1| |].
  - eapply (ex_hist many_ps 1 257 (fun _ => 0)); [exact OK|intros; lia|exact Ee].
  - by eapply elem_of_list_lookup_2.
  - intros l0 El. destruct (mLevs s) as [|l1 ls]; [done|]. simpl in El. injection El as ->. simpl in E3. injection E3 as E3 E4 _. split; [exact E3|exact E4].
Qed.

(** ** C66: configurations and unsupported calls. *)
(** IsValidConfiguration: all cells of the footprints at the pose, each level's with its own map, are in the map and free. *)
Theorem C66_configuration N k ps s fp fps : mhist N k ps s -> length fps = length (mLevs s) ->
  exists b, mValidConf (mLevs s) (mB s) fp fps = Ok b /\ (b = true <-> (forall c, c ∈ fp -> free (lGrid (mB s)) (cObs (lC (mB s))) c) /\ forall lev l f c, mLevs s !! lev = Some l -> fps !! lev = Some f -> c ∈ f -> free (vGrid l) (cObs (lC (mB s))) c).
Proof.
  intros Hh Hlen. destruct (mhist_sane _ _ _ _ Hh) as (OKp & K & [[[I C] _ _] L _]). set (obs := cObs (lC (mB s))) in *.
  assert (B : exists b, base_conf (mB s) fp = Ok b /\ (b = true <-> forall c, c ∈ fp -> free (lGrid (mB s)) obs c)).
  { clear -I. induction fp as [|c fp IH]; simpl.
    - exists true. split; [done|]. split; [|done]. intros _ c Hc. by apply elem_of_nil in Hc.
    - destruct (lWithin (mB s) c.1 c.2) eqn:Hw; simpl.
      + pose proof (proj1 (lWithin_iff _ _ _) Hw) as [Hx Hy]. destruct (proj1 (li_grid _ I) _ _ Hx Hy) as [v G]. unfold lrd. rewrite G. simpl. fold obs. rewrite <- (surjective_pairing c) in G. destruct (v >=? obs) eqn:Q.
        * exists false. split; [done|]. split; [done|]. intros F. destruct (F c) as (v' & G' & L'); [left|]. rewrite G in G'. injection G' as <-. lia.
        * destruct IH as (b & Eb & Hb). exists b. split; [done|]. rewrite Hb. split; intros F q Hq; [apply elem_of_cons in Hq as [-> |Hq]; [exists v; split; [done|lia]|auto]|apply F; by right].
      + exists false. split; [done|]. split; [done|]. intros F. destruct (F c) as (v & G & _); [left|]. destruct c as [x y]. apply (grid_within _ I) in G as [G _]. simpl in *. congruence. }
  assert (LC : forall l f, l ∈ mLevs s -> exists b, lev_conf (mB s) l f = Ok b /\ (b = true <-> forall c, c ∈ f -> free (vGrid l) obs c)).
  { intros l f Hl. induction f as [|c f IH]; simpl.
    - exists true. split; [done|]. split; [|done]. intros _ c Hc. by apply elem_of_nil in Hc.
    - destruct (lWithin (mB s) c.1 c.2) eqn:Hw; simpl.
      + destruct (vrd_in (mB s) I N k (mLevs s) L l c.1 c.2 Hl Hw) as (v & E & G & _). rewrite E. simpl. fold obs. rewrite <- (surjective_pairing c) in G. destruct (v >=? obs) eqn:Q.
        * exists false. split; [done|]. split; [done|]. intros F. destruct (F c) as (v' & G' & L'); [left|]. rewrite G in G'. injection G' as <-. lia.
        * destruct IH as (b & Eb & Hb). exists b. split; [done|]. rewrite Hb. split; intros F q Hq; [apply elem_of_cons in Hq as [-> |Hq]; [exists v; split; [done|lia]|auto]|apply F; by right].
      + exists false. split; [done|]. split; [done|]. intros F. destruct (F c) as (v & G & _); [left|]. destruct c as [x y]. apply (lev_within (mB s) I N k (mLevs s) L) in G as [G _]; [simpl in *; congruence|done]. }
  assert (LS : forall ls fs, (forall l, l ∈ ls -> l ∈ mLevs s) -> length fs = length ls -> exists b, levs_conf (mB s) ls fs = Ok b /\ (b = true <-> forall lev l f c, ls !! lev = Some l -> fs !! lev = Some f -> c ∈ f -> free (vGrid l) obs c)).
  { induction ls as [|l ls IH]; intros [|f fs] Hs Hlf; simpl in *; try lia; [by exists true|].
    destruct (LC l f) as (b & Eb & Hb); [apply Hs; left|]. rewrite Eb. simpl. destruct b.
    - destruct (IH fs) as (b & Eb' & Hb'); [intros l' Hl'; apply Hs; by right|lia|]. exists b. split; [done|]. rewrite Hb'. split.
      + intros F [|lev] l' f' c E1 E2; simpl in *; [injection E1 as <-; injection E2 as <-; by apply Hb|by eapply F].
      + intros F lev l' f' c E1 E2. by apply (F (S lev) l' f' c).
    - exists false. split; [done|]. split; [done|]. intros F. apply Hb. intros c Hc. by apply (F 0%nat l f c). }
  unfold mValidConf. destruct B as (b & Eb & Hb). rewrite Eb. simpl. destruct b.
  - destruct (LS (mLevs s) fps) as (b & Eb' & Hb'); [done|done|]. exists b. split; [done|]. rewrite Hb'. split; [intros F; split; [by apply Hb|done]|by intros [_ F]].
  - exists false. split; [done|]. split; [done|]. intros [F _]. by apply Hb.
Qed.
(** GetPredsofChangedEdges and GetSuccsofChangedEdges throw, and change nothing. *)
Theorem C66_changed s cells acc : mChanged s cells acc = Exn ().
Proof. reflexivity. Qed.
Example C66_example : (do s <- ex_mlev; do a <- mValidConf (mLevs s) (mB s) [(0, 0); (1, 0)] [[(1, 0)]; [(2, 0); (2, 2)]]; do b <- mValidConf (mLevs s) (mB s) [(0, 0); (1, 0)] [[(1, 0)]; [(2, 0); (2, 1)]];
  do c <- mValidConf (mLevs s) (mB s) [(0, 0); (2, 1)] [[(2, 1)]; []]; do d <- mValidConf (mLevs s) (mB s) [(3, 0)] [[]; []]; Ok (a, b, c, d)) = Ok (true, false, true, false).
Proof. vm_compute. reflexivity. Qed.

Print Assumptions C63_total.
Print Assumptions C63_valid.
Print Assumptions C63_obstacle.
Print Assumptions C63_map_cost.
Print Assumptions C63_init.
Print Assumptions C63_set.
Print Assumptions C63_update.
Print Assumptions C64_succs.
Print Assumptions C64_preds.
Print Assumptions C64_lazy_succs.
Print Assumptions C64_lazy_preds.
Print Assumptions C64_true_cost.
Print Assumptions C65_promise.
Print Assumptions C65_no_levels.
Print Assumptions C65_fewer_levels.
Print Assumptions C65_other_footprint_refuted.
Print Assumptions C65_many_primitives_refuted.
Print Assumptions C66_configuration.
