From Coq Require Import ZifyBool ZifyNat.
From Verif Require Import Base NavModel NavSpec NavProofs.
Local Open Scope Z_scope.
Notation dirT := (Z * Z * (Z * Z) * (Z * Z))%type.

(** * Every reachable environment satisfies the invariant *)
Definition ext0 (e e' : nav) : Prop :=
  nW e' = nW e /\ nH e' = nH e /\ nObs e' = nObs e /\ nDirs e' = nDirs e /\ nTable e `prefix_of` nTable e'.
Lemma ext0_refl e : ext0 e e.
Proof. done. Qed.
Lemma ext0_trans e1 e2 e3 : ext0 e1 e2 -> ext0 e2 e3 -> ext0 e1 e3.
Proof. intros (?&?&?&?&?) (?&?&?&?&?). split_and!; try congruence. by etrans. Qed.
Lemma ext_ext0 e e' : ext e e' -> ext0 e e'.
Proof. intros (?&?&?&?&?&?&?&?). done. Qed.
Lemma ext0_lookup e e' id c : ext0 e e' -> nTable e !! id = Some c -> nTable e' !! id = Some c.
Proof. intros (?&?&?&?&[k ->]) Hl. rewrite lookup_app_l; [done|]. by apply lookup_lt_Some in Hl. Qed.

Lemma gsfc_ok e x y r : nav_ok e -> GetStateFromCoord e x y = Ok r -> nav_ok r.2 /\ ext e r.2 /\ nTable r.2 !! r.1 = Some (x, y).
Proof. intros Hok E. destruct (gsfc_spec e x y Hok) as (id&e'&E'&?&?&?). rewrite E in E'. injection E' as ->. done. Qed.

Lemma gsfc_endc e x y r : GetStateFromCoord e x y = Ok r -> nEndC r.2 = nEndC e.
Proof.
  unfold GetStateFromCoord, CreateNewHashEntry. repeat case_match; intros E; try done; by injection E as <-.
Qed.

Lemma dir_loop_ok (step : nat -> dirT -> nav * list (nat * Z) -> nres (nav * list (nat * Z))) :
  (forall i d st st', nav_ok st.1 -> step i d st = Ok st' -> nav_ok st'.1 /\ ext st.1 st'.1) ->
  forall ds i st st', nav_ok st.1 -> dir_loop step i ds st = Ok st' -> nav_ok st'.1 /\ ext st.1 st'.1.
Proof.
  intros Hs ds. induction ds as [|d ds IH]; intros i st st' Hok E; simpl in E.
  - injection E as <-. auto using ext_refl.
  - apply obind_ok in E as (st1&E1&E2). destruct (Hs _ _ _ _ Hok E1) as [Hok1 Hx1].
    destruct (IH _ _ _ Hok1 E2) as [? ?]. split; [done|by eapply ext_trans].
Qed.
Lemma succ_step_ok x y test i d st st' : nav_ok st.1 -> succ_step x y test i d st = Ok st' -> nav_ok st'.1 /\ ext st.1 st'.1.
Proof.
  intros Hok E. unfold succ_step in E. apply obind_ok in E as (ok&_&E).
  destruct (negb ok); [injection E as <-; auto using ext_refl|].
  apply obind_ok in E as (c0&_&E). apply obind_ok in E as (cm&_&E).
  destruct (cm >=? nObs st.1); [injection E as <-; auto using ext_refl|].
  apply obind_ok in E as (r&E1&E). injection E as <-. apply gsfc_ok in E1; [|done]. simpl. tauto.
Qed.
Lemma pred_step_ok c x y test i d st st' : nav_ok st.1 -> pred_step c x y test i d st = Ok st' -> nav_ok st'.1 /\ ext st.1 st'.1.
Proof.
  intros Hok E. unfold pred_step in E. apply obind_ok in E as (ok&_&E).
  destruct (negb ok); [injection E as <-; auto using ext_refl|].
  apply obind_ok in E as (cm&_&E).
  destruct (cm >=? nObs st.1); [injection E as <-; auto using ext_refl|].
  apply obind_ok in E as (r&E1&E). injection E as <-. apply gsfc_ok in E1; [|done]. simpl. tauto.
Qed.
Lemma GetSuccs_ok e id r : nav_ok e -> GetSuccs e id = Ok r -> nav_ok r.2 /\ ext e r.2.
Proof.
  intros Hok E. unfold GetSuccs in E. destruct (id =? nGoal e)%nat; [injection E as <-; auto using ext_refl|].
  apply obind_ok in E as (c&_&E). apply obind_ok in E as (st&E1&E). injection E as <-.
  by apply (dir_loop_ok _ (succ_step_ok _ _ _)) in E1.
Qed.
Lemma GetPreds_ok e id r : nav_ok e -> GetPreds e id = Ok r -> nav_ok r.2 /\ ext e r.2.
Proof.
  intros Hok E. unfold GetPreds in E. apply obind_ok in E as (c&_&E). apply obind_ok in E as (t&_&E).
  destruct (t >=? nObs e); [injection E as <-; auto using ext_refl|].
  apply obind_ok in E as (st&E1&E). injection E as <-.
  by apply (dir_loop_ok _ (pred_step_ok _ _ _ _)) in E1.
Qed.

(** SetAllActionsandAllOutcomes produces GetSuccs' list, with action labels. *)
Definition unlabel (a : nat * nat * Z) : nat * Z := (a.1.2, a.2).
Definition map_out {A B} (f : A -> B) (o : nres A) : nres B :=
  match o with Ok a => Ok (f a) | Exn e => Exn e | UB => UB | OOF => OOF end.
Lemma action_step_sim x y test i d e acc :
  succ_step x y test i d (e, unlabel <$> acc) = map_out (fun r => (r.1, unlabel <$> r.2)) (action_step x y test i d (e, acc)).
Proof.
  unfold succ_step, action_step. cbn [fst snd].
  destruct (if test then IsValidCell e (x + d.1.1.1) (y + d.1.1.2) else Ok true) as [ok| | |]; try done. cbn [obind].
  destruct (negb ok); [done|]. destruct (rdgrid e (x + d.1.1.1) (y + d.1.1.2)) as [c0| | |]; try done. cbn [obind].
  destruct (through_cost e i d x y c0) as [m| | |]; try done. cbn [obind]. destruct (m >=? nObs e); [done|].
  destruct (GetStateFromCoord e (x + d.1.1.1) (y + d.1.1.2)) as [r| | |]; try done. cbn [obind map_out fst snd].
  by rewrite fmap_app.
Qed.
Lemma action_loop_sim x y test ds : forall i e acc,
  dir_loop (succ_step x y test) i ds (e, unlabel <$> acc) =
  map_out (fun r => (r.1, unlabel <$> r.2)) (action_loop x y test i ds (e, acc)).
Proof.
  induction ds as [|d ds IH]; intros i e acc; [done|]. cbn [dir_loop action_loop]. rewrite action_step_sim.
  destruct (action_step x y test i d (e, acc)) as [[e1 acc1]| | |]; try done. cbn [obind map_out fst snd]. apply IH.
Qed.
Lemma SetAllActions_sim e id :
  GetSuccs e id = map_out (fun r => (unlabel <$> r.1, r.2)) (SetAllActionsandAllOutcomes e id).
Proof.
  unfold GetSuccs, SetAllActionsandAllOutcomes. destruct (id =? nGoal e)%nat; [done|].
  destruct (GetCoordFromState e id) as [c| | |]; try done. cbn [obind].
  pose proof (action_loop_sim c.1 c.2 (bTestBounds e c.1 c.2) (take (nDirs e) dtable) 0 e []) as Hs. cbn in Hs. rewrite Hs.
  destruct (action_loop c.1 c.2 (bTestBounds e c.1 c.2) 0 (take (nDirs e) dtable) (e, [])) as [[e1 a]| | |]; done.
Qed.

(** The changed-edges lists. *)
Definition affected (W H : Z) (ds : list dirT) (c : Z * Z) : list (Z * Z) :=
  filter (fun t => in_map W H t) ((fun d => tgt c d) <$> ds).
#[global] Instance in_map_dec W H c : Decision (in_map W H c).
Proof. unfold in_map. apply _. Defined.
Definition pts (e : nav) (id : nat) (c : Z * Z) : Prop := nTable e !! id = Some c.
Lemma pts_mono e e' l cs : ext e e' -> Forall2 (pts e) l cs -> Forall2 (pts e') l cs.
Proof. intros Hx HF. eapply Forall2_impl; [exact HF|]. intros. by eapply ext_lookup. Qed.
Lemma changed_dirs_spec c ds : forall e acc, nav_ok e ->
  exists e' l, changed_dirs c.1 c.2 ds (e, acc) = Ok (e', acc ++ l) /\ nav_ok e' /\ ext e e' /\
    Forall2 (pts e') l (affected (nW e) (nH e) ds c).
Proof.
  induction ds as [|d ds IH]; intros e acc Hok; cbn [changed_dirs].
  - exists e, []. rewrite app_nil_r. split_and!; auto using ext_refl. constructor.
  - unfold affected. csimpl. cbn [fst snd]. fold (affected (nW e) (nH e) ds c). unfold affected in *.
    destruct ((c.1 + d.1.1.1 <? 0) || (c.1 + d.1.1.1 >=? nW e) || (c.2 + d.1.1.2 <? 0) || (c.2 + d.1.1.2 >=? nH e)) eqn:Eb.
    + rewrite filter_cons_False by (unfold in_map, tgt; simpl; lia). apply IH. done.
    + rewrite filter_cons_True by (unfold in_map, tgt; simpl; lia).
      destruct (gsfc_spec e (c.1 + d.1.1.1) (c.2 + d.1.1.2) Hok) as (id&e1&->&Hok1&Hx1&Hid). cbn [obind fst snd].
      destruct (IH e1 (acc ++ [id]) Hok1) as (e'&l&->&Hok'&Hx'&HF). exists e', (id :: l).
      rewrite <- app_assoc. split_and!; [done|done|by eapply ext_trans|].
      constructor; [by eapply ext_lookup|]. destruct Hx1 as (EW&EH&_). by rewrite EW, EH in HF.
Qed.
Lemma changed_loop_spec cs : forall e acc, nav_ok e ->
  exists e' l, changed_loop cs (e, acc) = Ok (e', acc ++ l) /\ nav_ok e' /\ ext e e' /\
    Forall2 (pts e') l (c ← cs; c :: affected (nW e) (nH e) (take (nDirs e) dtable) c).
Proof.
  induction cs as [|c cs IH]; intros e acc Hok; cbn [changed_loop].
  - exists e, []. rewrite app_nil_r. split_and!; auto using ext_refl. constructor.
  - destruct (gsfc_spec e c.1 c.2 Hok) as (id&e1&E1&Hok1&Hx1&Hid). cbn [fst snd]. rewrite E1. cbn [obind fst snd].
    destruct (changed_dirs_spec c (take (nDirs e1) dtable) e1 (acc ++ [id]) Hok1) as (e2&l2&->&Hok2&Hx2&HF2). cbn [obind].
    destruct (IH e2 ((acc ++ [id]) ++ l2) Hok2) as (e3&l3&->&Hok3&Hx3&HF3).
    exists e3, (id :: l2 ++ l3). split_and!; [by rewrite <- !app_assoc|done|by eauto using ext_trans|].
    csimpl. constructor.
    + eapply ext_lookup; [eapply ext_trans; [exact Hx2|exact Hx3]|]. rewrite Hid. by destruct c.
    + apply Forall2_app.
      * destruct Hx1 as (EW&EH&_&ED&_). rewrite EW, EH, ED in HF2. by eapply pts_mono.
      * destruct (ext_trans _ _ _ Hx1 Hx2) as (EW&EH&_&ED&_). by rewrite EW, EH, ED in HF3.
Qed.
Lemma changed_loop_ok cs e r : nav_ok e -> changed_loop cs (e, []) = Ok r -> nav_ok r.1 /\ ext e r.1.
Proof. intros Hok E. destruct (changed_loop_spec cs e [] Hok) as (e'&l&E'&?&?&_). rewrite E in E'. injection E' as ->. done. Qed.

Lemma nexec_ok e o e' : nav_ok e -> nexec e o = Ok e' -> nav_ok e' /\ ext0 e e'.
Proof.
  intros Hok E. destruct o; cbn [nexec] in E.
  - apply obind_ok in E as (r&E&[= <-]). apply gsfc_ok in E; [|done]. split; [tauto|]. apply ext_ext0. tauto.
  - apply obind_ok in E as (r&E&[= <-]). unfold SetGoal in E. destruct (negb (IsWithinMapCell e x y)).
    { injection E as <-. auto using ext0_refl. }
    apply obind_ok in E as (b&_&E). apply obind_ok in E as (r1&E1&[= <-]). apply gsfc_ok in E1 as (Hok1&Hx1&_); [|done].
    split; [destruct Hok1; by split|]. by apply ext_ext0 in Hx1.
  - apply obind_ok in E as (r&E&[= <-]). unfold SetStart in E. destruct (negb (IsWithinMapCell e x y)).
    { injection E as <-. auto using ext0_refl. }
    apply obind_ok in E as (b&_&E). apply obind_ok in E as (r1&E1&[= <-]). apply gsfc_ok in E1 as (Hok1&Hx1&_); [|done].
    split; [destruct Hok1; by split|]. by apply ext_ext0 in Hx1.
  - unfold UpdateCost in E. destruct (nGrid e !! (x, y)) as [c0|] eqn:Eg; [|done]. injection E as <-.
    split; [|done]. destruct Hok as [A B D F G]. split; cbn; try done.
    intros c. destruct (decide (c = (x, y))) as [->|Hne].
    + rewrite lookup_insert. split; [|by eauto]. intros _. apply F. by rewrite Eg.
    + by rewrite lookup_insert_ne.
  - apply obind_ok in E as (r&E&[= <-]). apply GetSuccs_ok in E as [? ?]; [|done]. auto using ext_ext0.
  - apply obind_ok in E as (r&E&[= <-]). apply GetPreds_ok in E as [? ?]; [|done]. auto using ext_ext0.
  - apply obind_ok in E as (r&E&[= <-]). pose proof (SetAllActions_sim e id) as Hs. rewrite E in Hs.
    apply GetSuccs_ok in Hs as [? ?]; [|done]. auto using ext_ext0.
  - apply obind_ok in E as (r&E&[= <-]). unfold GetPredsofChangedEdges in E. apply obind_ok in E as (r1&E&[= <-]).
    apply changed_loop_ok in E as [? ?]; [|done]. auto using ext_ext0.
  - apply obind_ok in E as (r&E&[= <-]). unfold GetSuccsofChangedEdges in E. apply obind_ok in E as (r1&E&[= <-]).
    apply changed_loop_ok in E as [? ?]; [|done]. auto using ext_ext0.
Qed.
Lemma nrun_ok os : forall e e', nav_ok e -> nrun e os = Ok e' -> nav_ok e' /\ ext0 e e'.
Proof.
  induction os as [|o os IH]; intros e e' Hok E; cbn [nrun] in E.
  - injection E as <-. auto using ext0_refl.
  - apply obind_ok in E as (e1&E1&E). apply nexec_ok in E1 as [Hok1 Hx]; [|done].
    destruct (IH _ _ Hok1 E) as [? ?]. split; [done|by eapply ext0_trans].
Qed.
Lemma nafter_ok e e' : nav_ok e -> nafter e e' -> nav_ok e' /\ ext0 e e'.
Proof. intros Hok [os E]. by eapply nrun_ok. Qed.

Definition init_cells (w h : Z) : list (Z * Z) :=
  y ← (Z.of_nat <$> seq 0 (Z.to_nat h)); (fun x => (x, y)) <$> (Z.of_nat <$> seq 0 (Z.to_nat w)).
Lemma elem_seqZ n x : x ∈ (Z.of_nat <$> seq 0 (Z.to_nat n)) <-> 0 <= x < n.
Proof.
  rewrite elem_of_list_fmap. split.
  - intros (k&->&Hk). apply elem_of_seq in Hk. lia.
  - intros Hx. exists (Z.to_nat x). split; [lia|]. apply elem_of_seq. lia.
Qed.
Lemma elem_init_cells w h c : c ∈ init_cells w h <-> in_map w h c.
Proof.
  unfold init_cells, in_map. rewrite elem_of_list_bind. destruct c as [x y]. split.
  - intros (y'&Hin&Hy). apply elem_of_list_fmap in Hin as (x'&[= -> ->]&Hx). apply elem_seqZ in Hx, Hy. done.
  - intros [Hx Hy]. exists y. split; [|by apply elem_seqZ]. apply elem_of_list_fmap. exists x. split; [done|]. by apply elem_seqZ.
Qed.
Lemma init_grid (f : Z * Z -> Z) l c : (list_to_map ((fun c => (c, f c)) <$> l) : gmap (Z * Z) Z) !! c =
  if decide (c ∈ l) then Some (f c) else None.
Proof.
  induction l as [|a l IH]; csimpl.
  - destruct (decide (c ∈ [])) as [Hc|]; [by apply elem_of_nil in Hc|apply lookup_empty].
  - destruct (decide (a = c)) as [->|Hne].
    + rewrite lookup_insert. destruct (decide (c ∈ c :: l)) as [|Hn]; [done|]. exfalso. apply Hn. by left.
    + rewrite lookup_insert_ne by done. rewrite IH. destruct (decide (c ∈ l)) as [H|H], (decide (c ∈ a :: l)) as [H'|H']; try done.
      * exfalso. apply H'. by right.
      * apply elem_of_cons in H' as [?|?]; done.
Qed.

Lemma init_ok v w h m sx sy gx gy obs e0 :
  InitializeEnv (SetEnvParameter16 new_nav v).2 w h m sx sy gx gy obs = Ok e0 ->
  nav_ok e0 /\ nW e0 = w /\ nH e0 = h /\ nObs e0 = obs /\ nDirs e0 = (if v =? 0 then 8%nat else 16%nat) /\
  in_map w h (sx, sy) /\ id_of e0 (nStart e0) (sx, sy) /\ id_of e0 (nGoal e0) (gx, gy) /\
  (forall c, in_map w h c -> cellcost e0 c = match m with None => 0 | Some f => f (c.1 + c.2 * w) end) /\
  (1 <= nMapping e0)%nat.
Proof.
  intros E. unfold InitializeEnv in E. apply obind_ok in E as (e1&E1&E2).
  unfold SetConfiguration, SetEnvParameter16 in E1. cbn [new_nav nInit snd] in E1.
  destruct ((sx <? 0) || (sx >=? w)) eqn:B1; [done|]. destruct ((sy <? 0) || (sy >=? h)) eqn:B2; [done|].
  injection E1 as <-. unfold InitializeEnvironment in E2. cbn [with_tables nStartC nEndC fst snd] in E2.
  match type of E2 with obind (GetStateFromCoord ?e _ _) _ = _ => set (ee := e) in * end.
  assert (nav_ok ee) as Hok0.
  { split; cbn; try done; [constructor| | |].
    - intros b c id. rewrite lookup_empty. simpl. split; [|naive_solver]. intros Hin. by apply elem_of_nil in Hin.
    - intros c. fold (init_cells w h). rewrite (init_grid (fun c => match m with None => 0 | Some f => f (c.1 + c.2 * w) end)).
      rewrite <- elem_init_cells. destruct (decide (c ∈ init_cells w h)); split; try done. intros [? ?]; done.
    - destruct (v =? 0); auto. }
  apply obind_ok in E2 as ([sid es]&Es&E2). pose proof Es as Es0. apply gsfc_ok in Es as (Hoks&Hxs&Hss); [|done]. cbn [fst snd] in *.
  apply obind_ok in E2 as ([gid eg]&Eg&E2). apply gsfc_ok in Eg as (Hokg&Hxg&Hgg); [|done]. cbn [fst snd] in *.
  injection E2 as <-. 
  pose proof (ext_trans _ _ _ Hxs Hxg) as (EW&EH&EO&ED&EG&_&_&_).
  assert (nEndC es = (gx, gy)) as Hend.
  { apply gsfc_endc in Es0. cbn [snd] in Es0. by rewrite Es0. }
  split_and!; cbn.
  - destruct Hokg; by split.
  - by rewrite EW. - by rewrite EH. - by rewrite EO. - rewrite ED. by destruct (v =? 0).
  - unfold in_map; simpl; lia.
  - apply gcfs_id. cbn. by eapply ext_lookup.
  - apply gcfs_id. cbn. rewrite Hgg, Hend. done.
  - intros c Hc. unfold cellcost. cbn. rewrite EG. cbn. fold (init_cells w h).
    rewrite (init_grid (fun c => match m with None => 0 | Some f => f (c.1 + c.2 * w) end)).
    apply elem_init_cells in Hc. by destruct (decide (c ∈ init_cells w h)).
  - rewrite (ok_map _ Hokg). apply lookup_lt_Some in Hgg. lia.
Qed.

Lemma init_succeeds v w h m sx sy gx gy obs : in_map w h (sx, sy) ->
  exists e0, InitializeEnv (SetEnvParameter16 new_nav v).2 w h m sx sy gx gy obs = Ok e0.
Proof.
  intros [H1 H2]. cbn [fst snd] in *. unfold InitializeEnv, SetConfiguration, SetEnvParameter16. cbn [new_nav nInit snd].
  destruct ((sx <? 0) || (sx >=? w)) eqn:B1; [lia|]. destruct ((sy <? 0) || (sy >=? h)) eqn:B2; [lia|]. cbn [obind].
  unfold InitializeEnvironment. cbn [with_tables nStartC nEndC fst snd].
  match goal with |- context [GetStateFromCoord ?e _ _] => set (ee := e) end.
  assert (nav_ok ee) as Hok0.
  { split; cbn; try done; [constructor| | |].
    - intros b c id. rewrite lookup_empty. simpl. split; [|naive_solver]. intros Hin. by apply elem_of_nil in Hin.
    - intros c. fold (init_cells w h). rewrite (init_grid (fun c => match m with None => 0 | Some f => f (c.1 + c.2 * w) end)).
      rewrite <- elem_init_cells. destruct (decide (c ∈ init_cells w h)); split; try done. intros [? ?]; done.
    - destruct (v =? 0); auto. }
  destruct (gsfc_spec ee sx sy Hok0) as (sid&es&->&Hoks&_). cbn [obind fst snd].
  destruct (gsfc_spec es (nEndC es).1 (nEndC es).2 Hoks) as (gid&eg&->&_). cbn [obind fst snd].
  by eexists.
Qed.

Lemma reachable_ok e : nav_reachable e -> nav_ok e /\ (1 <= nMapping e)%nat.
Proof.
  intros (v&w&h&m&sx&sy&gx&gy&obs&e0&E&Ha). apply init_ok in E as (Hok&_&_&_&_&_&_&_&_&Hm).
  destruct (nafter_ok _ _ Hok Ha) as [Hok' (_&_&_&_&Hp)]. split; [done|].
  rewrite (ok_map _ Hok) in Hm. rewrite (ok_map _ Hok'). apply prefix_length in Hp. lia.
Qed.
Lemma near_border_spec e t : bTestBounds e t.1 t.2 = true <-> near_border e t.
Proof. unfold bTestBounds, near_border. lia. Qed.

Lemma nafter_trans e1 e2 e3 : nafter e1 e2 -> nafter e2 e3 -> nafter e1 e3.
Proof.
  intros [os E1] [os' E2]. exists (os ++ os'). revert e1 E1. induction os as [|o os IH]; intros e1 E1; cbn in *.
  - by injection E1 as ->.
  - apply obind_ok in E1 as (e'&E&E1). rewrite E. cbn. by apply IH.
Qed.
Lemma nafter_reachable e e' : nav_reachable e -> nafter e e' -> nav_reachable e'.
Proof.
  intros (v&w&h&m&sx&sy&gx&gy&obs&e0&E&Ha) Ha'. exists v, w, h, m, sx, sy, gx, gy, obs, e0. split; [done|].
  by eapply nafter_trans.
Qed.

(** C26 *)
Lemma gsfc_stable e x y : nav_reachable e ->
  exists id e1, GetStateFromCoord e x y = Ok (id, e1) /\ id_of e1 id (x, y) /\
    (forall e2, nafter e1 e2 -> GetStateFromCoord e2 x y = Ok (id, e2) /\ id_of e2 id (x, y)).
Proof.
  intros Hr. destruct (reachable_ok e Hr) as [Hok _]. destruct (gsfc_spec e x y Hok) as (id&e1&E&Hok1&Hx&Hid).
  exists id, e1. split_and!; [done|by apply gcfs_id|]. intros e2 Ha. destruct (nafter_ok _ _ Hok1 Ha) as [Hok2 Hx2].
  pose proof (ext0_lookup _ _ _ _ Hx2 Hid) as Hid2. split; [|by apply gcfs_id].
  unfold GetStateFromCoord. apply (hash_spec e2 x y id Hok2) in Hid2. by rewrite Hid2.
Qed.
Lemma id_unique e a b c : nav_reachable e -> id_of e a c -> id_of e b c -> a = b.
Proof.
  intros Hr Ha Hb. destruct (reachable_ok e Hr) as [Hok _]. apply gcfs_id in Ha, Hb.
  by eapply NoDup_lookup; [apply (ok_nodup e Hok)|..].
Qed.
Lemma id_of_stable e e' a c : nav_reachable e -> nafter e e' -> id_of e a c -> id_of e' a c.
Proof.
  intros Hr Hn Ha. destruct (reachable_ok e Hr) as [Hok _]. destruct (nafter_ok _ _ Hok Hn) as [_ Hx].
  apply gcfs_id. apply gcfs_id in Ha. by eapply ext0_lookup.
Qed.
Lemma reinit_throws e w h m sx sy gx gy obs : nav_reachable e ->
  exists e', InitializeEnv e w h m sx sy gx gy obs = Exn e'.
Proof.
  intros Hr. destruct (reachable_ok e Hr) as [Hok Hm]. unfold InitializeEnv, SetConfiguration.
  destruct ((sx <? 0) || (sx >=? w)); [by eexists|]. destruct ((sy <? 0) || (sy >=? h)); [by eexists|].
  cbn [obind]. unfold InitializeEnvironment. cbn [with_tables nMapping nStartC fst snd].
  unfold GetStateFromCoord, GetHashEntry. cbn [with_tables nBins]. rewrite lookup_empty. cbn [default bin_search].
  unfold CreateNewHashEntry. cbn [with_tables nTable nMapping nBins length].
  destruct (0 <? S (nMapping e))%nat eqn:E1; [|lia]. destruct (0 =? S (nMapping e) - 1)%nat eqn:E2; [lia|]. cbn [obind]. by eexists.
Qed.

(** C30 *)
Lemma touched_move b s t len x : is_move b (t.1 - s.1) (t.2 - s.2) len -> x ∈ touched s t ->
  exists len', is_move b (x.1 - s.1) (x.2 - s.2) len'.
Proof.
  intros Hm Hx. unfold touched in Hx. destruct s as [sx sy], t as [tx ty]. cbn [fst snd] in *.
  assert (x = (tx, ty) -> exists len', is_move b (x.1 - sx) (x.2 - sy) len') as Htgt by (intros ->; by eexists).
  unfold is_move in Hm.
  destruct ((Z.abs (tx - sx) =? 1) && (Z.abs (ty - sy) =? 1)) eqn:E1.
  { apply elem_of_cons in Hx as [->|Hx]; [auto|]. exists 1000. left.
    apply elem_of_cons in Hx as [->|Hx]; [simpl; lia|]. apply elem_of_list_singleton in Hx as ->. simpl; lia. }
  destruct (Z.abs (tx - sx) =? 2) eqn:E2.
  { apply elem_of_cons in Hx as [->|Hx]; [auto|].
    apply elem_of_cons in Hx as [->|Hx]; [exists 1000; left; simpl; lia|].
    apply elem_of_list_singleton in Hx as ->. exists 1414. right. left. simpl. lia. }
  destruct (Z.abs (ty - sy) =? 2) eqn:E3.
  { apply elem_of_cons in Hx as [->|Hx]; [auto|].
    apply elem_of_cons in Hx as [->|Hx]; [exists 1000; left; simpl; lia|].
    apply elem_of_list_singleton in Hx as ->. exists 1414. right. left. simpl. lia. }
  apply elem_of_list_singleton in Hx. auto.
Qed.
Lemma touched_move_rev b s t len x : is_move b (t.1 - s.1) (t.2 - s.2) len -> x ∈ touched s t ->
  x = t \/ exists len', is_move b (x.1 - t.1) (x.2 - t.2) len'.
Proof.
  intros Hm Hx. unfold touched in Hx. destruct s as [sx sy], t as [tx ty]. cbn [fst snd] in *. unfold is_move in Hm.
  destruct ((Z.abs (tx - sx) =? 1) && (Z.abs (ty - sy) =? 1)) eqn:E1.
  { apply elem_of_cons in Hx as [->|Hx]; [auto|]. right. exists 1000. left.
    apply elem_of_cons in Hx as [->|Hx]; [simpl; lia|]. apply elem_of_list_singleton in Hx as ->. simpl; lia. }
  destruct (Z.abs (tx - sx) =? 2) eqn:E2.
  { apply elem_of_cons in Hx as [->|Hx]; [auto|]. right.
    apply elem_of_cons in Hx as [->|Hx]; [exists 1414; right; left; simpl; lia|].
    apply elem_of_list_singleton in Hx as ->. exists 1000. left. simpl. lia. }
  destruct (Z.abs (ty - sy) =? 2) eqn:E3.
  { apply elem_of_cons in Hx as [->|Hx]; [auto|]. right.
    apply elem_of_cons in Hx as [->|Hx]; [exists 1414; right; left; simpl; lia|].
    apply elem_of_list_singleton in Hx as ->. exists 1000. left. simpl. lia. }
  apply elem_of_list_singleton in Hx. auto.
Qed.
Lemma elem_affected e c t : nav_ok e -> t ∈ affected (nW e) (nH e) (take (nDirs e) dtable) c <->
  in_map (nW e) (nH e) t /\ exists len, is_move (sixteen e) (t.1 - c.1) (t.2 - c.2) len.
Proof.
  intros Hok. unfold affected. rewrite elem_of_list_filter, elem_of_list_fmap. split.
  - intros [Hin (d&->&Hd)]. split; [done|]. apply elem_of_list_lookup in Hd as [i Hi].
    apply dtable_move in Hi as [_ Hm]; [|apply (ok_dirs e Hok)]. unfold tgt. cbn [fst snd]. rewrite !addsub. by eexists.
  - intros [Hin [len Hm]]. split; [done|]. destruct (move_dtable (nDirs e) _ _ _ (ok_dirs e Hok) Hm) as (i&d&Hi&Hd&_).
    exists d. split; [destruct d as [[[? ?] ?] ?], t; cbn in Hd |- *; injection Hd as -> ->; unfold tgt; cbn; f_equal; lia|]. by eapply elem_of_list_lookup_2.
Qed.
Lemma is_move_swap b (s t : Z * Z) len : is_move b (t.1 - s.1) (t.2 - s.2) len -> is_move b (s.1 - t.1) (s.2 - t.2) len.
Proof. intros Hm. apply is_move_opp. replace (- (s.1 - t.1)) with (t.1 - s.1) by lia. by replace (- (s.2 - t.2)) with (t.2 - s.2) by lia. Qed.

Definition chg (e : nav) (cs : list (Z * Z)) (s : Z * Z) : Prop :=
  s ∈ cs \/ in_map (nW e) (nH e) s /\ exists c len, c ∈ cs /\ is_move (sixteen e) (s.1 - c.1) (s.2 - c.2) len.
Lemma changed_list_spec e cs : nav_ok e ->
  exists l e', (GetPredsofChangedEdges e cs = Ok (l, e') /\ GetSuccsofChangedEdges e cs = Ok (l, e')) /\ nav_ok e' /\ ext e e' /\
    (forall s, (exists id, id ∈ l /\ id_of e' id s) <-> chg e cs s).
Proof.
  intros Hok. unfold GetPredsofChangedEdges, GetSuccsofChangedEdges.
  destruct (changed_loop_spec cs e [] Hok) as (e'&l&->&Hok'&Hx&HF). cbn. exists l, e'. split_and!; auto.
  intros s. trans (s ∈ (c ← cs; c :: affected (nW e) (nH e) (take (nDirs e) dtable) c)).
  - split.
    + intros (id&Hin&Hid). apply elem_of_list_lookup in Hin as [i Hi]. apply gcfs_id in Hid.
      destruct (Forall2_lookup_l _ _ _ _ _ HF Hi) as (t&Ht&Hp). unfold pts in Hp. rewrite Hid in Hp. injection Hp as <-.
      by eapply elem_of_list_lookup_2.
    + intros Hin. apply elem_of_list_lookup in Hin as [i Hi].
      destruct (Forall2_lookup_r _ _ _ _ _ HF Hi) as (id&Hid&Hp). exists id. split; [by eapply elem_of_list_lookup_2|]. by apply gcfs_id.
  - rewrite elem_of_list_bind. unfold chg. split.
    + intros (c&Hin&Hc). apply elem_of_cons in Hin as [->|Hin]; [auto|]. apply elem_affected in Hin as [? [len ?]]; [|done].
      right. split; [done|]. by exists c, len.
    + intros [Hs|[Hin (c&len&Hc&Hm)]].
      * exists s. split; [by left|done].
      * exists c. split; [|done]. right. apply elem_affected; [done|]. split; [done|]. by exists len.
Qed.
#[global] Instance chg_dec e cs s : nav_ok e -> Decision (chg e cs s).
Proof.
  intros Hok. destruct (decide (s ∈ (c ← cs; c :: affected (nW e) (nH e) (take (nDirs e) dtable) c))) as [H|H].
  - left. apply elem_of_list_bind in H as (c&Hin&Hc). apply elem_of_cons in Hin as [->|Hin]; [by left|].
    apply elem_affected in Hin as [? [len ?]]; [|done]. right. split; [done|]. by exists c, len.
  - right. intros [Hs|[Hin (c&len&Hc&Hm)]]; apply H; apply elem_of_list_bind.
    + exists s. split; [by left|done].
    + exists c. split; [|done]. right. apply elem_affected; [done|]. split; [done|]. by exists len.
Defined.

Section change.
Context (e1 e2 : nav) (Hok : nav_ok e2) (Hx : ext0 e1 e2) (cs : list (Z * Z)).
Context (Hsame : forall c, c ∉ cs -> cellcost e1 c = cellcost e2 c).
Lemma edge_same s t c : in_map (nW e2) (nH e2) s -> ~ chg e2 cs s -> nedge e1 s t c <-> nedge e2 s t c.
Proof using Hx Hsame.
  intros Hs Hn. unfold nedge, edge, sixteen. destruct Hx as (<-&<-&<-&Ed&_). rewrite Ed.
  assert (forall len x, is_move (nDirs e1 =? 16)%nat (t.1 - s.1) (t.2 - s.2) len -> x ∈ touched s t -> cellcost e1 x = cellcost e2 x) as Heq.
  { intros len x Hm Hxt. apply Hsame. intros Hin. destruct (touched_move _ _ _ _ _ Hm Hxt) as [len' Hm'].
    apply Hn. right. split; [done|]. exists x, len'. split; [done|]. unfold sixteen. rewrite Ed. by apply is_move_swap. }
  split; intros (len&m&Hm&Hi&M1&(y&Hy&<-)&Ho&->); exists len.
  - exists (cellcost e2 y). rewrite <- (Heq len y) by done. split_and!; try done.
    + intros x Hxt. rewrite <- (Heq len x) by done. auto.
    + exists y. split; [done|]. symmetry. by eapply Heq.
  - exists (cellcost e1 y). rewrite (Heq len y) by done. split_and!; try done.
    + intros x Hxt. rewrite (Heq len x) by done. auto.
    + exists y. split; [done|]. by eapply Heq.
Qed.
Lemma pedge_same s t c : in_map (nW e2) (nH e2) t -> ~ chg e2 cs t -> pedge e1 s t c <-> pedge e2 s t c.
Proof using Hx Hsame.
  intros Ht Hn. unfold pedge, nedge, edge, sixteen, near_border. destruct Hx as (<-&<-&<-&Ed&_). rewrite Ed.
  assert (forall len x, is_move (nDirs e1 =? 16)%nat (t.1 - s.1) (t.2 - s.2) len -> x ∈ touched s t \/ x = s -> cellcost e1 x = cellcost e2 x) as Heq.
  { intros len x Hm Hxt. apply Hsame. intros Hin. apply Hn. destruct Hxt as [Hxt| ->].
    - destruct (touched_move_rev _ _ _ _ _ Hm Hxt) as [->|[len' Hm']]; [by left|].
      right. split; [done|]. exists x, len'. split; [done|]. unfold sixteen. rewrite Ed. by apply is_move_swap.
    - right. split; [done|]. exists s, len. split; [done|]. unfold sixteen. by rewrite Ed. }
  split; intros [(len&m&Hm&Hi&M1&(y&Hy&<-)&Ho&->) [Hsi Hv]].
  - split; [|split; [done|]; rewrite <- (Heq len s) by auto; done]. exists len.
    exists (cellcost e2 y). rewrite <- (Heq len y) by auto. split_and!; try done.
    + intros x Hxt. rewrite <- (Heq len x) by auto. auto.
    + exists y. split; [done|]. symmetry. eapply Heq; eauto.
  - split; [|split; [done|]; rewrite (Heq len s) by auto; done]. exists len.
    exists (cellcost e1 y). rewrite (Heq len y) by auto. split_and!; try done.
    + intros x Hxt. rewrite (Heq len x) by auto. auto.
    + exists y. split; [done|]. eapply Heq; eauto.
Qed.
End change.

(** * Heuristic *)
Lemma sq_lt_cancel x y : 0 <= y -> x * x < y * y -> x < y.
Proof. nia. Qed.
Lemma sq_le_cancel x y : 0 <= y -> x * x <= y * y -> x <= y.
Proof. nia. Qed.
(** Cauchy-Schwarz and the triangle inequality in the integers. *)
Lemma cauchy a b c d : (a * c + b * d) * (a * c + b * d) <= (a * a + b * b) * (c * c + d * d).
Proof.
  pose proof (Z.square_nonneg (a * d - b * c)) as H.
  replace ((a * a + b * b) * (c * c + d * d)) with ((a * c + b * d) * (a * c + b * d) + (a * d - b * c) * (a * d - b * c)) by ring.
  lia.
Qed.
Lemma triangle_le k a b c d p q : 0 <= p -> 0 <= q -> 0 <= k ->
  k * (a * a + b * b) <= p * p -> k * (c * c + d * d) <= q * q ->
  k * ((a + c) * (a + c) + (b + d) * (b + d)) <= (p + q) * (p + q).
Proof.
  intros Hp Hq Hk H1 H2.
  assert (k * (a * c + b * d) <= p * q) as Hc.
  { apply sq_le_cancel; [nia|]. pose proof (cauchy a b c d).
    assert (k * (a * a + b * b) * (k * (c * c + d * d)) <= p * p * (q * q)) by (apply Z.mul_le_mono_nonneg; nia).
    nia. }
  nia.
Qed.
Lemma euclid_bounds x1 y1 x2 y2 : let h := EuclideanDistance x1 y1 x2 y2 in
  let D := (x1 - x2) * (x1 - x2) + (y1 - y2) * (y1 - y2) in
  0 <= h /\ h * h <= 1000000 * D < (h + 1) * (h + 1).
Proof.
  unfold EuclideanDistance, COSTMULT. change (1000 * 1000) with 1000000.
  set (D := (x1 - x2) * (x1 - x2) + (y1 - y2) * (y1 - y2)). assert (0 <= 1000000 * D) by (pose proof (Z.square_nonneg (x1 - x2)); pose proof (Z.square_nonneg (y1 - y2)); unfold D; lia).
  pose proof (Z.sqrt_spec (1000000 * D) H). pose proof (Z.sqrt_nonneg (1000000 * D)). simpl. unfold Z.succ in *. lia.
Qed.
Lemma euclid_self x y : EuclideanDistance x y x y = 0.
Proof. unfold EuclideanDistance. rewrite !Z.sub_diag. reflexivity. Qed.
Lemma euclid_sym x1 y1 x2 y2 : EuclideanDistance x1 y1 x2 y2 = EuclideanDistance x2 y2 x1 y1.
Proof. unfold EuclideanDistance. f_equal. lia. Qed.

Lemma edge_len (e : nav) s t c : (forall x, 0 <= cellcost e x) -> nedge e s t c ->
  0 < c /\ 1000000 * ((s.1 - t.1) * (s.1 - t.1) + (s.2 - t.2) * (s.2 - t.2)) < (c + 1) * (c + 1) /\
  25000000000000 * ((s.1 - t.1) * (s.1 - t.1) + (s.2 - t.2) * (s.2 - t.2)) <= (5001 * c) * (5001 * c).
Proof.
  intros Hpos (len&m&Hm&_&_&(x&_&<-)&_&->). specialize (Hpos x). set (k := cellcost e x) in *. clearbody k.
  set (a := s.1 - t.1). set (b := s.2 - t.2).
  assert (is_move (sixteen e) a b len) as Hm' by (unfold a, b; by apply is_move_swap). clear Hm. clearbody a b.
  assert (0 < len /\ 1000000 * (a * a + b * b) < (len + 1) * (len + 1) /\
     25000000000000 * (a * a + b * b) <= (5001 * len) * (5001 * len)) as (H1&H2&H3).
  { destruct Hm' as [[H ->]|[(H1&H2&->)|(_&H1&H2&->)]].
    - assert (a * a + b * b = 1) as -> by (assert (a = 0 \/ b = 0) as [->| ->] by lia; nia). lia.
    - assert (a * a + b * b = 2) as -> by nia. lia.
    - assert (a * a + b * b = 5) as -> by (assert (Z.abs a = 1 /\ Z.abs b = 2 \/ Z.abs a = 2 /\ Z.abs b = 1) as [[? ?]|[? ?]] by lia; nia). lia. }
  assert (len <= (k + 1) * len) by nia. split; [lia|]. split.
  - assert ((len + 1) * (len + 1) <= ((k + 1) * len + 1) * ((k + 1) * len + 1)) by (apply Z.mul_le_mono_nonneg; lia). lia.
  - assert ((5001 * len) * (5001 * len) <= (5001 * ((k + 1) * len)) * (5001 * ((k + 1) * len))) by (apply Z.mul_le_mono_nonneg; lia). lia.
Qed.
Lemma near_consistent (e : nav) s t g c : (forall x, 0 <= cellcost e x) -> nedge e s t c ->
  EuclideanDistance s.1 s.2 g.1 g.2 <= c + EuclideanDistance t.1 t.2 g.1 g.2 + 1.
Proof.
  intros Hpos He. destruct (edge_len e s t c Hpos He) as (H0&H1&_).
  destruct (euclid_bounds s.1 s.2 g.1 g.2) as (Ha0&Ha1&_).
  destruct (euclid_bounds t.1 t.2 g.1 g.2) as (Hb0&_&Hb2).
  set (h := EuclideanDistance s.1 s.2 g.1 g.2) in *. set (k := EuclideanDistance t.1 t.2 g.1 g.2) in *. clearbody h k.
  apply Z.lt_succ_r. unfold Z.succ. apply sq_lt_cancel; [lia|]. eapply Z.le_lt_trans; [exact Ha1|].
  pose proof (triangle_le 1000000 (s.1 - t.1) (s.2 - t.2) (t.1 - g.1) (t.2 - g.2) (c + 1) (k + 1)) as Ht.
  replace (s.1 - t.1 + (t.1 - g.1)) with (s.1 - g.1) in Ht by lia. replace (s.2 - t.2 + (t.2 - g.2)) with (s.2 - g.2) in Ht by lia.
  pose proof (Z.square_nonneg (s.1 - t.1)). pose proof (Z.square_nonneg (s.2 - t.2)).
  (* strictness: both hypotheses are strict, use p*p-1 slack via a strict variant *)
  assert (1000000 * ((s.1 - t.1) * (t.1 - g.1) + (s.2 - t.2) * (t.2 - g.2)) < (c + 1) * (k + 1)) as Hc.
  { apply sq_lt_cancel; [nia|]. pose proof (cauchy (s.1 - t.1) (s.2 - t.2) (t.1 - g.1) (t.2 - g.2)) as Hcs.
    set (A := (s.1 - t.1) * (s.1 - t.1) + (s.2 - t.2) * (s.2 - t.2)) in *.
    set (B := (t.1 - g.1) * (t.1 - g.1) + (t.2 - g.2) * (t.2 - g.2)) in *.
    set (X := (s.1 - t.1) * (t.1 - g.1) + (s.2 - t.2) * (t.2 - g.2)) in *.
    assert (0 <= B) by (pose proof (Z.square_nonneg (t.1 - g.1)); pose proof (Z.square_nonneg (t.2 - g.2)); unfold B; lia).
    assert (0 <= A) by (unfold A; lia). clearbody A B X. clear Ht.
    assert (1000000 * A * (1000000 * B) < (c + 1) * (c + 1) * ((k + 1) * (k + 1))) by (apply Z.mul_lt_mono_nonneg; lia).
    nia. }
  nia.
Qed.
Lemma path_bound (e : nav) s t C : (forall x, 0 <= cellcost e x) -> npath e s t C ->
  0 <= C /\ 25000000000000 * ((s.1 - t.1) * (s.1 - t.1) + (s.2 - t.2) * (s.2 - t.2)) <= (5001 * C) * (5001 * C).
Proof.
  intros Hpos. induction 1 as [s|s t u c C He Hp [IH0 IH]].
  - split; [lia|]. rewrite !Z.sub_diag. lia.
  - destruct (edge_len e s t c Hpos He) as (H0&_&H1). split; [lia|].
    pose proof (triangle_le 25000000000000 (s.1 - t.1) (s.2 - t.2) (t.1 - u.1) (t.2 - u.2) (5001 * c) (5001 * C)
      ltac:(lia) ltac:(lia) ltac:(lia) H1 IH) as Ht.
    replace (s.1 - t.1 + (t.1 - u.1)) with (s.1 - u.1) in Ht by lia. replace (s.2 - t.2 + (t.2 - u.2)) with (s.2 - u.2) in Ht by lia.
    replace (5001 * (c + C)) with (5001 * c + 5001 * C) by lia. exact Ht.
Qed.
Lemma heur_path (e : nav) s t C : (forall x, 0 <= cellcost e x) -> npath e s t C ->
  5000 * EuclideanDistance s.1 s.2 t.1 t.2 <= 5001 * C.
Proof.
  intros Hpos Hp. destruct (path_bound e s t C Hpos Hp) as [H0 H1]. destruct (euclid_bounds s.1 s.2 t.1 t.2) as (Ha0&Ha1&_).
  apply sq_le_cancel; [lia|]. nia.
Qed.
