(** C77-C81: EnvironmentNAV2DUU, the grid map with uncertain cells. *)
From Verif Require Import Base EvalModel UuModel UuSpec UuProofs UuProofs2.
From Coq Require Import Lqa.
Local Open Scope Z_scope.

(** * C77: InitializeEnv *)
Theorem C77_init_square nd w map umap thr :
  MapOk w w map umap ->
  exists s, uu_init nd w w map umap thr = Ok s /\
    uu_SizeofCreatedEnv s = w * w /\
    (exists l, CellsOf w w (fun c => Uncertain (MapProb w map umap c.1 c.2)) l /\ uu_SizeofH s = Z.of_nat (length l)) /\
    exists hid, Numbering w w (MapProb w map umap) (uu_SizeofH s) hid /\
      forall x y, InMap w w x y -> uu_hid s !! (x, y) = Some (hid x y).
Proof.
  intros HM. destruct (init_tall nd w w map umap thr HM) as [[(x & y & [_ ?] & ? & _) _]|[_ (s & Hs & HI)]]; [lia|lia|].
  exists s. split; [done|]. split; [apply (is_S _ _ _ _ _ _ _ HI)|]. split.
  - exists (filter (fun c => isunc w map umap c = true) (xxcells w)). split.
    + split; [apply NoDup_filter, NoDup_xxcells|]. intros x y.
      rewrite elem_of_list_filter, elem_of_xxcells. unfold isunc. rewrite uu_uncertain_spec. simpl. tauto.
    + unfold uu_SizeofH. rewrite (is_H _ _ _ _ _ _ _ HI), ucount_app.
      replace (ucount (isunc w map umap) (ucells_rest w w)) with 0; [unfold ucount; lia|].
      symmetry. apply ucount_zero. intros [x y] Hc. apply elem_of_rest in Hc. lia.
  - exists (fun x y => default 0 (uu_hid s !! (x, y))). split.
    + split_and!.
      * intros x y H1 H2. rewrite (is_hid_cert _ _ _ _ _ _ _ HI) by done. done.
      * intros x y H1 H2. destruct (is_hid_unc _ _ _ _ _ _ _ HI x y H1 H2) as (i & -> & Hi). done.
      * intros x y x' y' H1 H2 H3 H4 Heq.
        destruct (is_hid_unc _ _ _ _ _ _ _ HI x y H1 H3) as (i & E1 & _).
        destruct (is_hid_unc _ _ _ _ _ _ _ HI x' y' H2 H4) as (i' & E2 & _).
        rewrite E1, E2 in Heq. simpl in Heq. subst i'.
        pose proof (is_hid_inj _ _ _ _ _ _ _ HI x y x' y' i H1 H2 H3 H4 E1 E2) as E. injection E. done.
      * intros i Hi. destruct (is_hid_surj _ _ _ _ _ _ _ HI i Hi) as (x & y & H1 & H2 & H3).
        exists x, y. rewrite H3. done.
    + intros x y HIn. destruct (uu_uncertain (MapProb w map umap x y)) eqn:E.
      * apply uu_uncertain_spec in E. destruct (is_hid_unc _ _ _ _ _ _ _ HI x y HIn E) as (i & -> & _). done.
      * apply uncertain_false in E. rewrite (is_hid_cert _ _ _ _ _ _ _ HI) by done. done.
Qed.
Print Assumptions C77_init_square.

(** The loop over the rows runs to the width: on a map that is not square InitializeEnv reads outside the
    arrays, or throws, or leaves the rows from the width on without variables. *)
Theorem C77_init_nonsquare nd w h map umap thr :
  MapOk w h map umap ->
  (h < w -> uu_init nd w h map umap thr = UB) /\
  (w < h ->
   ((exists x y, InMap w h x y /\ w <= y /\ Uncertain (MapProb w map umap x y)) ->
      uu_init nd w h map umap thr = Exn tt) /\
   ((forall x y, InMap w h x y -> w <= y -> ~ Uncertain (MapProb w map umap x y)) ->
      exists s, uu_init nd w h map umap thr = Ok s /\
        forall x y, InMap w h x y -> (uu_hid s !! (x, y) = None <-> w <= y))).
Proof.
  intros HM. split; [intros Hhw; apply init_wide; done|]. intros Hwh.
  destruct (init_tall nd w h map umap thr HM) as [[Hex Hr]|[Hno (s & Hs & HI)]]; [lia| |].
  - split; [done|]. intros Hno. exfalso. destruct Hex as (x & y & H1 & H2 & H3). by apply (Hno x y).
  - split.
    + intros (x & y & H1 & H2 & H3). exfalso. by apply (Hno x y).
    + intros _. exists s. split; [done|]. intros x y [Hx Hy]. split.
      * intros Hn. destruct (decide (w <= y)); [done|]. exfalso.
        assert (HIn : InMap w w x y) by (split; lia).
        destruct (uu_uncertain (MapProb w map umap x y)) eqn:E.
        -- apply uu_uncertain_spec in E. destruct (is_hid_unc _ _ _ _ _ _ _ HI x y HIn E) as (i & E' & _). congruence.
        -- apply uncertain_false in E. rewrite (is_hid_cert _ _ _ _ _ _ _ HI) in Hn by done. done.
      * intros Hwy. apply (is_hid_none _ _ _ _ _ _ _ HI). intros [_ ?]. lia.
Qed.
Print Assumptions C77_init_nonsquare.

(** The stated claim "InitializeEnv succeeds on every complete map" is false. *)
Theorem C77_any_map_refuted :
  ~ (forall nd w h map umap thr, MapOk w h map umap -> exists s, uu_init nd w h map umap thr = Ok s).
Proof.
  intros H. destruct (H 8 2 1 None None 255) as [s Hs].
  - split; [lia|]. split; [lia|done].
  - destruct (C77_init_nonsquare 8 2 1 None None 255) as [Hub _]; [split; [lia|]; split; [lia|done]|].
    rewrite Hub in Hs by lia. done.
Qed.
Print Assumptions C77_any_map_refuted.

(** A 2 x 2 map with two uncertain cells, one blocked cell and one free cell. *)
Definition ex_map : option (list Z) := Some [0; 3; 0; 0].
Definition ex_umap : option (list Q) := Some [0%Q; 0%Q; 1 # 4; 1 # 2].
Example C77_nonvacuous :
  MapOk 2 2 ex_map ex_umap /\
  match uu_init 8 2 2 ex_map ex_umap 200 with
  | Ok s => (uu_SizeofH s, uu_hid s !! (0, 1), uu_hid s !! (1, 1), uu_hid s !! (1, 0)) = (2, Some 0, Some 1, Some (-1))
  | _ => False
  end.
Proof.
  split.
  - split; [lia|]. split; [lia|]. eexists. split; [reflexivity|]. cbn [length]. lia.
  - vm_compute. reflexivity.
Qed.

(** The world an object represents after a history of calls. *)
Lemma init_winv nd w map umap thr s hid :
  MapOk w w map umap -> uu_init nd w w map umap thr = Ok s ->
  (forall x y, InMap w w x y -> uu_hid s !! (x, y) = Some (hid x y)) ->
  winv (mkWorld w w thr (MapCost w map) (MapProb w map umap) hid) s /\ uu_ndirs s = nd.
Proof.
  intros HM Hs Hh. destruct (init_tall nd w w map umap thr HM) as [[_ Hr]|[_ (s' & Hs' & HI)]]; [lia|congruence|].
  rewrite Hs in Hs'. injection Hs' as <-. split; [|apply (is_nd _ _ _ _ _ _ _ HI)].
  constructor; simpl.
  - apply (is_w _ _ _ _ _ _ _ HI).
  - apply (is_h _ _ _ _ _ _ _ HI).
  - apply (is_thr _ _ _ _ _ _ _ HI).
  - apply (is_grid _ _ _ _ _ _ _ HI).
  - intros x y HIn. rewrite (is_unc _ _ _ _ _ _ _ HI), decide_True; done.
  - intros x y HIn _. apply Hh. done.
Qed.

(** * C78: GetPreds *)
Theorem C78_getpreds w map umap thr s0 :
  MapOk w w map umap -> w <= 1024 -> uu_init 8 w w map umap thr = Ok s0 ->
  exists hid, Numbering w w (MapProb w map umap) (uu_SizeofH s0) hid /\
    forall os, UpdatesInMap w w os ->
    exists s, uu_run s0 os = Ok s /\
      let W := mkWorld w w thr (CostAfter (MapCost w map) os) (MapProb w map umap) hid in
      forall upd, BeliefsOk upd ->
      (forall x y p, InMap w w x y -> Believed upd (hid x y) (MapProb w map umap x y) p ->
         (wd_cost W x y < thr /\ ~ SurelyBlocked p ->
          exists acts, uu_GetPreds s (1024 * x + y) upd = Ok ([], acts, repeat (hid x y, 1) (length acts)) /\
            NoDup acts /\ forall a, a ∈ acts <-> MoveAction W upd x y p a) /\
         (thr <= wd_cost W x y \/ SurelyBlocked p -> uu_GetPreds s (1024 * x + y) upd = Ok ([], [], []))) /\
      (forall id, (forall x y, InMap w w x y -> id <> 1024 * x + y) -> uu_GetPreds s id upd = Ok ([], [], [])).
Proof.
  intros HM Hw Hs. destruct (C77_init_square 8 w map umap thr HM) as (s1 & Hs1 & _ & _ & hid & HN & Hh).
  rewrite Hs in Hs1. injection Hs1 as <-. exists hid. split; [done|]. intros os HU.
  destruct (init_winv 8 w map umap thr s0 hid HM Hs Hh) as [HW Hnd].
  destruct (run_ok _ s0 os HW HU) as (s & Hr & HW' & Hnd' & _). exists s. split; [done|]. intros W upd HB.
  unfold with_cost in HW'. cbn [wd_w wd_h wd_thr wd_cost wd_prob wd_hid] in HW'. fold W in HW'.
  assert (Hsq : wd_h W <= wd_w W) by (simpl; lia). split.
  - intros x y p HI Hbel.
    replace (1024 * x + y) with (uu_toid x y) by (unfold uu_toid, UU_MAXWH; lia).
    destruct (getpreds_spec W s HW' Hsq upd HB x y p) as [H1 H2]; [congruence|done|destruct HI; lia|done|].
    split; [|apply H2]. intros [Hc Hnb]. eexists. split; [apply H1; done|]. split.
    + apply nbr_NoDup; done.
    + intros a. apply nbr_spec; done.
  - intros id Hid. apply (getpreds_other W s HW'). intros x y HI. simpl in HI.
    unfold uu_toid, UU_MAXWH. specialize (Hid x y HI). lia.
Qed.
Print Assumptions C78_getpreds.

(** Which moves there are does not depend on the user: numofdirs is never written by the class. An object in
    zeroed memory has no moves at all, although the centre of an empty 3 x 3 map has eight neighbours. *)
Theorem C78_numofdirs_refuted :
  ~ (forall nd w map umap thr s, MapOk w w map umap -> uu_init nd w w map umap thr = Ok s ->
     forall x y dx dy c, InMap w w x y ->
       Move (mkWorld w w thr (MapCost w map) (MapProb w map umap) (fun _ _ => -1)) [] x y dx dy c ->
       uu_GetPreds s (1024 * x + y) [] <> Ok ([], [], [])).
Proof.
  intros H. assert (HM : MapOk 3 3 None None) by (split; [lia|]; split; [lia|done]).
  destruct (C77_init_square 0 3 None None 200 HM) as (s & Hs & _ & _ & hid & _ & Hh).
  destruct (init_winv 0 3 None None 200 s hid HM Hs Hh) as [HW Hnd].
  apply (H 0 3 None None 200 s HM Hs 1 1 1 0 1000).
  - split; lia.
  - unfold Move, InMap, MapCost. simpl. split_and!; try lia; intros [? ?]; lia.
  - apply (getpreds_nodirs _ _ _ _ HW); [simpl; lia|lia].
Qed.
Print Assumptions C78_numofdirs_refuted.

(** On a tall map GetPreds of a free cell below the square has undefined behaviour. *)
Theorem C78_tall_map_refuted nd w h map umap thr s x y upd :
  MapOk w h map umap -> uu_init nd w h map umap thr = Ok s -> InMap w h x y -> w <= y -> y < 1024 ->
  MapCost w map x y < thr -> uu_GetPreds s (1024 * x + y) upd = UB.
Proof.
  intros HM Hs [Hx Hy] Hwy Hy' Hc.
  destruct (init_tall nd w h map umap thr HM) as [[_ Hr]|[_ (s' & Hs' & HI)]]; [lia|congruence|].
  rewrite Hs in Hs'. injection Hs' as <-.
  destruct (toid_inv x y) as [Ex Ey]; [lia|lia|].
  replace (1024 * x + y) with (uu_toid x y) by (unfold uu_toid, UU_MAXWH; lia).
  apply (getpreds_nohid s _ upd (MapCost w map x y)); rewrite ?Ex, ?Ey.
  - apply within_spec. rewrite (is_w _ _ _ _ _ _ _ HI), (is_h _ _ _ _ _ _ _ HI). split; done.
  - rewrite (is_grid _ _ _ _ _ _ _ HI), decide_True; [done|]. split; done.
  - rewrite (is_thr _ _ _ _ _ _ _ HI). done.
  - apply (is_hid_none _ _ _ _ _ _ _ HI). intros [_ ?]. lia.
Qed.
Print Assumptions C78_tall_map_refuted.

(** In the example map, the free cell (0, 0) has a straight move from the uncertain cell (0, 1). The diagonal move from (1, 1)
    is there once the variable of (0, 1) is believed free. *)
Example C78_nonvacuous :
  match uu_init 8 2 2 ex_map ex_umap 200 with
  | Ok s =>
    match uu_GetPreds s 0 [], uu_GetPreds s 1025 [(0, 0)] with
    | Ok ([], [a; b], [(-1, 1); (-1, 1)]), Ok ([], l, [(1, 1); (1, 1); (1, 1)]) =>
      ua_src a = 1024 /\ ua_src b = 1 /\ (ua_src <$> l) = [1024; 1; 0]
    | _, _ => False
    end
  | _ => False
  end.
Proof. vm_compute. done. Qed.

(** * C79: state IDs, start and goal *)
Theorem C79_ids nd w h map umap thr s0 :
  MapOk w h map umap -> uu_init nd w h map umap thr = Ok s0 ->
  forall os, UpdatesInMap w h os ->
  exists s, uu_run s0 os = Ok s /\
    uu_InitializeMDPCfg s =
      (1024 * (LastStart w h os (0, 0)).1 + (LastStart w h os (0, 0)).2,
       1024 * (LastGoal w h os (0, 0)).1 + (LastGoal w h os (0, 0)).2) /\
    uu_SizeofCreatedEnv s = w * h /\
    forall x y,
      (InMap w h x y -> (uu_SetStart s x y).2 = 1024 * x + y /\ (uu_SetGoal s x y).2 = 1024 * x + y) /\
      (~ InMap w h x y -> uu_SetStart s x y = (s, -1) /\ uu_SetGoal s x y = (s, -1)).
Proof.
  intros HM Hs os HU.
  destruct (decide (h < w)) as [Hlt|Hge]; [rewrite init_wide in Hs by done; done|].
  destruct (init_tall nd w h map umap thr HM) as [[_ Hr]|[_ (s' & Hs' & HI)]]; [lia|congruence|].
  rewrite Hs in Hs'. injection Hs' as <-.
  set (W := mkWorld w h thr (MapCost w map) (MapProb w map umap) (fun x y => default 0 (uu_hid s0 !! (x, y)))).
  assert (HW : winv W s0).
  { constructor; simpl.
    - apply (is_w _ _ _ _ _ _ _ HI).
    - apply (is_h _ _ _ _ _ _ _ HI).
    - apply (is_thr _ _ _ _ _ _ _ HI).
    - apply (is_grid _ _ _ _ _ _ _ HI).
    - intros x y HIn. rewrite (is_unc _ _ _ _ _ _ _ HI), decide_True; done.
    - intros x y [Hx Hy] Hyw. assert (HIn : InMap w w x y) by (split; lia).
      destruct (uu_uncertain (MapProb w map umap x y)) eqn:E.
      + apply uu_uncertain_spec in E. destruct (is_hid_unc _ _ _ _ _ _ _ HI x y HIn E) as (i & -> & _). done.
      + apply uncertain_false in E. rewrite (is_hid_cert _ _ _ _ _ _ _ HI) by done. done. }
  destruct (run_ok W s0 os HW HU) as (s & Hr & HW' & _ & _ & HS & _ & Hst & Hgo).
  exists s. split; [done|]. split.
  - unfold uu_InitializeMDPCfg.
    destruct (is_ids _ _ _ _ _ _ _ HI) as [I1 I2].
    rewrite (Hst 0 0), (Hgo 0 0) by done. unfold uu_toid, UU_MAXWH. simpl. f_equal; lia.
  - split; [unfold uu_SizeofCreatedEnv; rewrite HS; apply (is_S _ _ _ _ _ _ _ HI)|].
    intros x y. assert (Hw : uu_within s x y = true <-> InMap w h x y).
    { rewrite within_spec, (wi_w _ _ HW'), (wi_h _ _ HW'). done. }
    unfold uu_SetStart, uu_SetGoal. split.
    + intros HIn. apply Hw in HIn. rewrite HIn. simpl. unfold uu_toid, UU_MAXWH. lia.
    + intros Hn. destruct (uu_within s x y); [exfalso; apply Hn, Hw; done|]. done.
Qed.
Print Assumptions C79_ids.

(** Two cells of a map of height at most 1024 never share an ID ... *)
Theorem C79_ids_distinct w h x y x' y' :
  h <= 1024 -> InMap w h x y -> InMap w h x' y' -> 1024 * x + y = 1024 * x' + y' -> x = x' /\ y = y'.
Proof. unfold InMap. lia. Qed.
Print Assumptions C79_ids_distinct.

Lemma run_nil s s' : uu_run s [] = Ok s' -> s' = s.
Proof. simpl. congruence. Qed.

(** ... but InitializeEnv accepts taller maps, and there they do. *)
Theorem C79_tall_ids_refuted :
  ~ (forall nd w h map umap thr s, MapOk w h map umap -> uu_init nd w h map umap thr = Ok s ->
     forall x y x' y', InMap w h x y -> InMap w h x' y' ->
       (uu_SetStart s x y).2 = (uu_SetStart s x' y').2 -> (x, y) = (x', y')).
Proof.
  intros H. assert (HM : MapOk 1025 1025 None None) by (split; [lia|]; split; [lia|done]).
  destruct (C77_init_square 8 1025 None None 200 HM) as (s & Hs & _).
  destruct (C79_ids 8 1025 1025 None None 200 s HM Hs []) as (s' & Hr & _ & _ & Hid); [intros ? ? ? []|].
  apply run_nil in Hr. subst s'.
  assert (I1 : InMap 1025 1025 0 1024) by (unfold InMap; lia).
  assert (I2 : InMap 1025 1025 1 0) by (unfold InMap; lia).
  specialize (H 8 1025 1025 None None 200 s HM Hs 0 1024 1 0 I1 I2).
  destruct (Hid 0 1024) as [E1 _]. destruct (Hid 1 0) as [E2 _].
  destruct (E1 I1) as [F1 _]. destruct (E2 I2) as [F2 _].
  rewrite F1, F2 in H. assert (E : 1024 * 0 + 1024 = 1024 * 1 + 0) by lia. specialize (H E). injection H. lia.
Qed.
Print Assumptions C79_tall_ids_refuted.

Example C79_nonvacuous :
  match uu_init 8 2 2 ex_map ex_umap 200 with
  | Ok s =>
    match uu_run s [UuStart 1 1; UuGoal 0 1; UuUpdate 0 0 7; UuStart 5 5] with
    | Ok s' => uu_InitializeMDPCfg s' = (1025, 1) /\ (uu_SetStart s' 2 0).2 = -1
    | _ => False
    end
  | _ => False
  end.
Proof. vm_compute. done. Qed.

(** * C80: the kind of the actions and their outcomes *)
Theorem C80_outcomes w map umap thr s0 os s x y upd det stoch nonpref :
  MapOk w w map umap -> w <= 1024 -> uu_init 8 w w map umap thr = Ok s0 -> UpdatesInMap w w os -> BeliefsOk upd ->
  (forall a b, (0 <= MapProb w map umap a b)%Q) ->
  InMap w w x y -> uu_run s0 os = Ok s -> uu_GetPreds s (1024 * x + y) upd = Ok (det, stoch, nonpref) ->
  det = [] /\ length nonpref = length stoch /\ (forall v, v ∈ nonpref -> v.2 = 1) /\
  forall a, a ∈ stoch -> exists c p, ua_outs a = [(1024 * x + y, c, (1 - p)%Q); (ua_src a, 2 * c, p)] /\
    (0 <= p <= 99999 # 100000)%Q.
Proof.
  intros HM Hw Hs HU HB Hpos HIn Hr Hg.
  destruct (C78_getpreds w map umap thr s0 HM Hw Hs) as (hid & HN & Hall).
  destruct (Hall os HU) as (s' & Hr' & HG). rewrite Hr in Hr'. injection Hr' as <-. cbv zeta in HG.
  specialize (HG upd HB) as [HG _].
  set (p := (uu_scan upd (hid x y) (MapProb w map umap x y) false).1).
  pose proof (scan_prob upd (hid x y) (MapProb w map umap x y) false) as Hbel. fold p in Hbel.
  destruct (HG x y p HIn Hbel) as [H1 H2].
  set (C := CostAfter (MapCost w map) os x y) in *. cbn [wd_cost] in H1, H2. fold C in H1, H2.
  destruct (decide (C < thr)) as [HC|HC].
  2:{ rewrite H2 in Hg by (left; lia). injection Hg as <- <- <-. split; [done|]. split; [done|].
      split; intros a Ha; by apply elem_of_nil in Ha. }
  destruct (Qlt_le_dec (99999 # 100000) p) as [Hb|Hnb].
  { rewrite H2 in Hg by (right; done). injection Hg as <- <- <-. split; [done|]. split; [done|].
    split; intros a Ha; by apply elem_of_nil in Ha. }
  destruct H1 as (acts & Hacts & _ & Hiff).
  { split; [done|]. unfold SurelyBlocked. lra. }
  rewrite Hg in Hacts. injection Hacts as -> -> ->. split; [done|].
  split; [apply repeat_length|]. split.
  - intros v Hv. apply elem_of_list_In in Hv. apply repeat_spec in Hv. subst v. done.
  - intros a Ha. apply Hiff in Ha as (k & dx & dy & c & _ & _ & ->). exists c, p. split; [done|]. split; [|done].
    destruct Hbel as [(l1 & q & l2 & He & _ & ->)|[_ ->]]; [|apply Hpos].
    assert (0 <= q <= 255) by (apply (HB (hid x y) q); rewrite He; apply in_or_app; right; left; done).
    change 0%Q with (inject_Z 0). rewrite <-Zle_Qle. lia.
Qed.
Print Assumptions C80_outcomes.

(** The claim of the code's comments, that a cell whose state is known is entered by a deterministic action,
    is false: line 567 clears the flag it should set. *)
Theorem C80_known_cell_refuted :
  ~ (forall w map umap thr s x y det stoch nonpref, MapOk w w map umap -> w <= 1024 ->
     uu_init 8 w w map umap thr = Ok s -> InMap w w x y -> SurelyFree (MapProb w map umap x y) ->
     uu_GetPreds s (1024 * x + y) [] = Ok (det, stoch, nonpref) -> stoch = []).
Proof.
  intros H. assert (HM : MapOk 2 2 None None) by (split; [lia|]; split; [lia|done]).
  assert (HIn : InMap 2 2 0 0) by (split; lia).
  destruct (C77_init_square 8 2 None None 200 HM) as (s & Hs & _).
  destruct (C78_getpreds 2 None None 200 s HM ltac:(lia) Hs) as (hid & HN & Hall).
  destruct (Hall []) as (s' & Hr & HG); [intros ? ? ? []|]. apply run_nil in Hr. subst s'. cbv zeta in HG.
  destruct (HG []) as [HG' _]; [intros ? ? []|].
  destruct (HG' 0 0 0%Q HIn) as [H1 _]; [right; split; [intros q []|done]|].
  destruct H1 as (acts & Hacts & _ & Hiff); [split; [simpl; unfold MapCost; lia|unfold SurelyBlocked; lra]|].
  assert (Hnil : acts = []).
  { apply (H 2 None None 200 s 0 0 [] acts (repeat (hid 0 0, 1) (length acts)) HM); try done. }
  assert (Hin : mkUA 1 1024 [(0, 1000, (1 - 0)%Q); (1024, 2000, 0%Q)] ∈ acts).
  { apply Hiff. exists 1, 1, 0, 1000. split.
    - unfold Dir. apply elem_of_list_further, elem_of_list_here.
    - split; [|done]. unfold Move, InMap, MapCost. simpl. unfold MapCost. split_and!; try lia; intros [? ?]; lia. }
  rewrite Hnil in Hin. by apply elem_of_nil in Hin.
Qed.
Print Assumptions C80_known_cell_refuted.

Example C80_nonvacuous :
  match uu_init 8 2 2 ex_map ex_umap 200 with
  | Ok s => match uu_GetPreds s 1025 [] with
            | Ok ([], a :: _, _) => ua_outs a = [(1025, 1000, (1 - (1 # 2))%Q); (ua_src a, 2000, 1 # 2)] \/ ua_id a = 4
            | _ => False
            end
  | _ => False
  end.
Proof. vm_compute. auto. Qed.

(** * C81: moves cost the same in both directions *)
Theorem C81_symmetric w map umap thr s0 os s :
  MapOk w w map umap -> w <= 1024 -> uu_init 8 w w map umap thr = Ok s0 -> UpdatesInMap w w os ->
  uu_run s0 os = Ok s ->
  forall upd x y x' y' d st np d' st' np' k c p,
  BeliefsOk upd -> InMap w w x y -> InMap w w x' y' ->
  uu_GetPreds s (1024 * x + y) upd = Ok (d, st, np) -> uu_GetPreds s (1024 * x' + y') upd = Ok (d', st', np') ->
  st' <> [] ->
  mkUA k (1024 * x' + y') [(1024 * x + y, c, (1 - p)%Q); (1024 * x' + y', 2 * c, p)] ∈ st ->
  exists p', mkUA (7 - k) (1024 * x + y) [(1024 * x' + y', c, (1 - p')%Q); (1024 * x + y, 2 * c, p')] ∈ st'.
Proof.
  intros HM Hw Hs HU Hr upd x y x' y' d st np d' st' np' k c p HB HI HI' Hg Hg' Hne Hin.
  destruct (C78_getpreds w map umap thr s0 HM Hw Hs) as (hid & HN & Hall).
  destruct (Hall os HU) as (s1 & Hr1 & HG). rewrite Hr in Hr1. injection Hr1 as <-. cbv zeta in HG.
  specialize (HG upd HB) as [HG _].
  match type of HG with context [MoveAction ?W0] => set (W := W0) in * end.
  assert (Hinv : forall x y d st np, InMap w w x y -> uu_GetPreds s (1024 * x + y) upd = Ok (d, st, np) -> st <> [] ->
            exists p, forall a, a ∈ st <-> MoveAction W upd x y p a).
  { clear -HG. intros x y d st np HI Hg Hne. 
    set (p := (uu_scan upd (hid x y) (MapProb w map umap x y) false).1).
    pose proof (scan_prob upd (hid x y) (MapProb w map umap x y) false) as Hbel. fold p in Hbel.
    destruct (HG x y p HI Hbel) as [H1 H2].
    destruct (decide (wd_cost W x y < thr)) as [HC|HC].
    2:{ rewrite H2 in Hg by (left; lia). injection Hg as <- <- <-. done. }
    destruct (Qlt_le_dec (99999 # 100000) p) as [Hb|Hnb].
    { rewrite H2 in Hg by (right; done). injection Hg as <- <- <-. done. }
    destruct H1 as (acts & Hacts & _ & Hiff); [split; [done|unfold SurelyBlocked; lra]|].
    rewrite Hg in Hacts. injection Hacts as _ -> _. exists p. done. }
  destruct (Hinv x y d st np HI Hg) as [p1 Hiff]; [intros ->; by apply elem_of_nil in Hin|].
  destruct (Hinv x' y' d' st' np' HI' Hg' Hne) as [p2 Hiff'].
  pose proof (proj1 (Hiff _) Hin) as Hmv. destruct Hmv as (k1 & dx & dy & c1 & HD & HMv & Heq).
  cbv zeta in Heq.
  assert (Hk : k = k1) by congruence. assert (Hcc : c = c1) by congruence.
  assert (Hsrc : 1024 * x' + y' = 1024 * (x + dx) + (y + dy)) by congruence.
  subst k1 c1. clear Heq Hin.
  pose proof HMv as (HIn' & _). cbn [W wd_w wd_h] in HIn'.
  destruct (C79_ids_distinct w w x' y' (x + dx) (y + dy) ltac:(lia) HI' HIn' Hsrc) as [-> ->].
  exists p2. apply Hiff'. exists (7 - k), (- dx), (- dy), c.
  split; [apply Dir_rev; done|]. split; [apply Move_rev; done|]. cbv zeta.
  replace (x + dx + - dx) with x by lia. replace (y + dy + - dy) with y by lia. done.
Qed.
Print Assumptions C81_symmetric.

Example C81_nonvacuous :
  match uu_init 8 2 2 ex_map ex_umap 200 with
  | Ok s =>
    match uu_GetPreds s 0 [], uu_GetPreds s 1024 [] with
    | Ok (_, [a; _], _), Ok (_, l, _) =>
      ua_src a = 1024 /\ ua_id a = 1 /\ (o ← ua_outs a; [o.1]) = [(0, 4000); (1024, 8000)] /\
      ((fun b => (ua_id b, ua_src b, (ua_outs b).*1)) <$> l) = [(3, 1025, [(1024, 4000); (1025, 8000)]); (6, 0, [(1024, 4000); (0, 8000)])]
    | _, _ => False
    end
  | _ => False
  end.
Proof. vm_compute. auto. Qed.
