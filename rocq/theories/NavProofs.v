From Coq Require Import ZifyBool ZifyNat.
From Verif Require Import Base NavModel NavSpec.
Local Open Scope Z_scope.

Record nav_ok (e : nav) : Prop := {
  ok_nodup : NoDup (nTable e);
  ok_bins : forall b c id, (c, id) ∈ default [] (nBins e !! b) <-> nTable e !! id = Some c /\ GETHASHBIN c.1 c.2 = b;
  ok_map : nMapping e = length (nTable e);
  ok_grid : forall c, is_Some (nGrid e !! c) <-> in_map (nW e) (nH e) c;
  ok_dirs : nDirs e = 8%nat \/ nDirs e = 16%nat
}.
(** Only the state tables grew. *)
Definition ext (e e' : nav) : Prop :=
  nW e' = nW e /\ nH e' = nH e /\ nObs e' = nObs e /\ nDirs e' = nDirs e /\ nGrid e' = nGrid e /\
  nGoal e' = nGoal e /\ nStart e' = nStart e /\ nTable e `prefix_of` nTable e'.
Lemma ext_refl e : ext e e.
Proof. done. Qed.
Lemma ext_trans e1 e2 e3 : ext e1 e2 -> ext e2 e3 -> ext e1 e3.
Proof. intros (?&?&?&?&?&?&?&?) (?&?&?&?&?&?&?&?). split_and!; try congruence. by etrans. Qed.
Lemma ext_lookup e e' id c : ext e e' -> nTable e !! id = Some c -> nTable e' !! id = Some c.
Proof. intros (?&?&?&?&?&?&?&[k ->]) Hl. rewrite lookup_app_l; [done|]. by apply lookup_lt_Some in Hl. Qed.

Lemma bin_search_spec b x y id : (forall c i j, (c, i) ∈ b -> (c, j) ∈ b -> i = j) ->
  bin_search b x y = Some id <-> ((x, y), id) ∈ b.
Proof.
  induction b as [|[[x0 y0] i0] b IH]; intros Hf; simpl.
  - split; [done|]. intros H. by apply elem_of_nil in H.
  - destruct ((x0 =? x) && (y0 =? y)) eqn:E.
    + assert (x0 = x /\ y0 = y) as [-> ->] by lia. split.
      * intros [= ->]. by left.
      * intros Hin. f_equal. apply (Hf (x, y)); [by left|done].
    + rewrite IH by (intros c i j Hi Hj; apply (Hf c); by right). split; [by right|].
      intros Hin. apply elem_of_cons in Hin as [[= -> -> ->]|?]; [lia|done].
Qed.
Lemma hash_spec e x y id : nav_ok e -> GetHashEntry e x y = Some id <-> nTable e !! id = Some (x, y).
Proof.
  intros Hok. unfold GetHashEntry. rewrite bin_search_spec.
  - rewrite (ok_bins e Hok). simpl. naive_solver.
  - intros c i j Hi Hj. apply (ok_bins e Hok) in Hi as [Hi _], Hj as [Hj _].
    by eapply NoDup_lookup; [apply (ok_nodup e Hok)|..].
Qed.
Lemma hash_none e x y : nav_ok e -> GetHashEntry e x y = None -> (x, y) ∉ nTable e.
Proof.
  intros Hok Hn Hin. apply elem_of_list_lookup in Hin as [id Hid]. apply (hash_spec e x y id Hok) in Hid. congruence.
Qed.

Lemma gsfc_spec e x y : nav_ok e ->
  exists id e', GetStateFromCoord e x y = Ok (id, e') /\ nav_ok e' /\ ext e e' /\ nTable e' !! id = Some (x, y).
Proof.
  intros Hok. unfold GetStateFromCoord. destruct (GetHashEntry e x y) as [id|] eqn:Hg.
  - exists id, e. apply (hash_spec e x y id Hok) in Hg. split_and!; auto using ext_refl.
  - pose proof (hash_none e x y Hok Hg) as Hnew. unfold CreateNewHashEntry.
    pose proof (ok_map e Hok) as Hm.
    destruct (length (nTable e) <? S (nMapping e))%nat eqn:E1; [|lia].
    destruct (length (nTable e) =? S (nMapping e) - 1)%nat eqn:E2; [|lia].
    eexists _, _. split; [done|]. split_and!; [|split_and!; try done|]; cbn.
    + split; cbn.
      * apply NoDup_app. split_and!; [apply (ok_nodup e Hok)| |apply NoDup_singleton].
        intros c Hc Hc'. apply elem_of_list_singleton in Hc'. by subst.
      * intros b c id. rewrite lookup_app_Some.
        destruct (decide (b = GETHASHBIN x y)) as [->|Hb].
        -- rewrite lookup_insert. simpl. rewrite elem_of_app, elem_of_list_singleton, (ok_bins e Hok). split.
           ++ intros [[? ?]|[= -> ->]]; [auto|]. split; [right|done]. split; [lia|]. by rewrite Nat.sub_diag.
           ++ intros [[Hl|[Hle Hl]] Hb]; [auto|].
              apply list_lookup_singleton_Some in Hl as [Hi <-]. right. f_equal. lia.
        -- rewrite lookup_insert_ne by done. rewrite (ok_bins e Hok). split; [intros [? ?]; auto|].
           intros [[Hl|[Hle Hl]] Hb']; [auto|]. apply list_lookup_singleton_Some in Hl as [Hi <-]. by subst.
      * rewrite app_length. simpl. lia.
      * apply (ok_grid e Hok).
      * apply (ok_dirs e Hok).
    + by exists [(x, y)].
    + apply lookup_app_Some. right. split; [lia|]. by rewrite Nat.sub_diag.
Qed.

Lemma gcfs_id e id c : id_of e id c <-> nTable e !! id = Some c.
Proof. unfold id_of, GetCoordFromState. destruct (nTable e !! id); naive_solver. Qed.

Lemma within_spec e x y : IsWithinMapCell e x y = true <-> in_map (nW e) (nH e) (x, y).
Proof. unfold IsWithinMapCell, in_map. simpl. lia. Qed.
Lemma rdgrid_spec e x y : nav_ok e -> in_map (nW e) (nH e) (x, y) -> rdgrid e x y = Ok (cellcost e (x, y)).
Proof. intros Hok Hi. unfold rdgrid, cellcost. apply (ok_grid e Hok) in Hi as [c ->]. done. Qed.

(** * The loop over the directions *)
Notation dirT := (Z * Z * (Z * Z) * (Z * Z))%type.
Section loop.
Context (s : Z * Z) (val : nat -> dirT -> option Z).
Definition tgt (d : dirT) : Z * Z := (s.1 + d.1.1.1, s.2 + d.1.1.2).
Fixpoint pure_list (i : nat) (ds : list dirT) : list ((Z * Z) * Z) :=
  match ds with
  | [] => []
  | d :: ds => match val i d with Some c => (tgt d, c) :: pure_list (S i) ds | None => pure_list (S i) ds end
  end.
Lemma pure_list_elem ds : forall i t c, (t, c) ∈ pure_list i ds <->
  exists j d, ds !! j = Some d /\ val (i + j)%nat d = Some c /\ t = tgt d.
Proof using s val.
  induction ds as [|d ds IH]; intros i t c; simpl.
  - rewrite elem_of_nil. split; [done|]. intros (j&d&?&_). by destruct j.
  - assert ((exists j d0, (d :: ds) !! j = Some d0 /\ val (i + j)%nat d0 = Some c /\ t = tgt d0) <->
            (val i d = Some c /\ t = tgt d) \/ exists j d0, ds !! j = Some d0 /\ val (S i + j)%nat d0 = Some c /\ t = tgt d0) as ->.
    { split.
      - intros ([|j]&d0&Hj&Hv&->).
        + simpl in Hj. injection Hj as <-. rewrite Nat.add_0_r in Hv. auto.
        + right. exists j, d0. replace (S i + j)%nat with (i + S j)%nat by lia. done.
      - intros [[? ->]|(j&d0&Hj&Hv&->)].
        + exists 0%nat, d. by rewrite Nat.add_0_r.
        + exists (S j), d0. replace (i + S j)%nat with (S i + j)%nat by lia. done. }
    rewrite <- IH. destruct (val i d) as [c0|].
    + rewrite elem_of_cons. split; [intros [[= -> ->]|?]; auto|intros [[[= ->] ->]|?]; auto].
    + split; [auto|]. intros [[? _]|?]; done.
Qed.
Lemma pure_list_NoDup ds : forall i, NoDup ((fun d : dirT => d.1.1) <$> ds) -> NoDup ((pure_list i ds).*1).
Proof using s val.
  induction ds as [|d ds IH]; intros i Hnd; simpl; [constructor|].
  apply NoDup_cons in Hnd as [Hd Hnd]. destruct (val i d) as [c|]; [|by apply IH].
  csimpl. constructor; [|by apply IH]. intros Hin. apply elem_of_list_fmap in Hin as ([t c']&Ht&Hin).
  apply pure_list_elem in Hin as (j&d'&Hj&_&Et). simpl in Ht. subst t.
  apply Hd. apply elem_of_list_fmap. exists d'. split; [|by eapply elem_of_list_lookup_2].
  unfold tgt in Et. injection Et as H1 H2. destruct d as [[[? ?] ?] ?], d' as [[[? ?] ?] ?]. simpl in *. f_equal; lia.
Qed.
Context (e0 : nav) (step : nat -> dirT -> nav * list (nat * Z) -> nres (nav * list (nat * Z))) (L : list dirT).
Hypothesis Hstep : forall i d st, L !! i = Some d -> nav_ok st.1 -> ext e0 st.1 ->
  step i d st = match val i d with
                | None => Ok st
                | Some c => do r <- GetStateFromCoord st.1 (tgt d).1 (tgt d).2; Ok (r.2, st.2 ++ [(r.1, c)])
                end.
Definition matches (e : nav) (p : nat * Z) (q : (Z * Z) * Z) : Prop := nTable e !! p.1 = Some q.1 /\ p.2 = q.2.
Lemma dir_loop_spec ds : forall i e acc, (forall j d, ds !! j = Some d -> L !! (i + j)%nat = Some d) ->
  nav_ok e -> ext e0 e ->
  exists e' l, dir_loop step i ds (e, acc) = Ok (e', acc ++ l) /\ nav_ok e' /\ ext e e' /\
    Forall2 (matches e') l (pure_list i ds).
Proof using Hstep.
  induction ds as [|d ds IH]; intros i e acc HL Hok He; simpl.
  - exists e, []. rewrite app_nil_r. split_and!; auto using ext_refl.
  - rewrite Hstep; [|rewrite <- (Nat.add_0_r i); by apply HL|done..].
    assert (forall j d0, ds !! j = Some d0 -> L !! (S i + j)%nat = Some d0) as HL'.
    { intros j d0 Hj. replace (S i + j)%nat with (i + S j)%nat by lia. by apply HL. }
    destruct (val i d) as [c|].
    + destruct (gsfc_spec e (tgt d).1 (tgt d).2 Hok) as (id&e1&E1&Hok1&Hx1&Hid). cbn [fst snd]. rewrite E1. cbn [obind fst snd].
      destruct (IH (S i) e1 (acc ++ [(id, c)]) HL' Hok1 (ext_trans _ _ _ He Hx1)) as (e'&l&->&Hok'&Hx'&HF).
      exists e', ((id, c) :: l). rewrite <- app_assoc. split_and!; [done|done|by eapply ext_trans|].
      constructor; [|done]. split; [|done]. simpl. rewrite (ext_lookup e1 e' id _ Hx' Hid). by destruct (tgt d).
    + cbn [obind]. exact (IH (S i) e acc HL' Hok He).
Qed.
End loop.

(** * The action table *)
Definition entry_ok (i : nat) (d : dirT) : Prop :=
  is_move (7 <? i)%nat d.1.1.1 d.1.1.2 (dxy_distance_mm i d.1.1.1 d.1.1.2).
Lemma dtable_cases i d : dtable !! i = Some d ->
  (i = 0%nat /\ d = (1, 1, (0, 1), (1, 0))) \/ (i = 1%nat /\ d = (1, 0, (0, 0), (0, 0))) \/
  (i = 2%nat /\ d = (1, -1, (0, -1), (1, 0))) \/ (i = 3%nat /\ d = (0, 1, (0, 0), (0, 0))) \/
  (i = 4%nat /\ d = (0, -1, (0, 0), (0, 0))) \/ (i = 5%nat /\ d = (-1, 1, (0, 1), (-1, 0))) \/
  (i = 6%nat /\ d = (-1, 0, (0, 0), (0, 0))) \/ (i = 7%nat /\ d = (-1, -1, (0, -1), (-1, 0))) \/
  (i = 8%nat /\ d = (2, 1, (1, 0), (1, 1))) \/ (i = 9%nat /\ d = (1, 2, (0, 1), (1, 1))) \/
  (i = 10%nat /\ d = (-1, 2, (0, 1), (-1, 1))) \/ (i = 11%nat /\ d = (-2, 1, (-1, 0), (-1, 1))) \/
  (i = 12%nat /\ d = (-2, -1, (-1, 0), (-1, -1))) \/ (i = 13%nat /\ d = (-1, -2, (0, -1), (-1, -1))) \/
  (i = 14%nat /\ d = (1, -2, (0, -1), (1, -1))) \/ (i = 15%nat /\ d = (2, -1, (1, 0), (1, -1))).
Proof.
  intros H. do 16 (destruct i as [|i]; [simpl in H; injection H as <-; tauto|]). done.
Qed.
Ltac dcases H := apply dtable_cases in H;
  repeat (destruct H as [H|H]; [destruct H as [-> ->]|]); [..|destruct H as [-> ->]].

Lemma addeq s a : (s + a =? s) = (a =? 0).
Proof. lia. Qed.
Lemma addsub s a : s + a - s = a.
Proof. lia. Qed.
(** Pure value of a move: the maximum over the touched cells, if legal. *)
Definition maxcost (g : Z * Z -> Z) (l : list (Z * Z)) (m : Z) : Prop :=
  (forall x, x ∈ l -> g x <= m) /\ (exists x, x ∈ l /\ g x = m).

Section moves.
Context (e : nav) (Hok : nav_ok e).
Let W := nW e. Let H := nH e. Let g := cellcost e.

Definition thru (i : nat) (d : dirT) (s : Z * Z) (c0 : Z) : Z :=
  if negb (s.1 + d.1.1.1 =? s.1) && negb (s.2 + d.1.1.2 =? s.2) && (i <=? 7)%nat
  then Z.max (Z.max c0 (g (s.1, s.2 + d.1.1.2))) (g (s.1 + d.1.1.1, s.2))
  else if (7 <? i)%nat
  then Z.max (Z.max c0 (g (s.1 + d.1.2.1, s.2 + d.1.2.2))) (g (s.1 + d.2.1, s.2 + d.2.2)) else c0.

Lemma through_ok i d s c0 : dtable !! i = Some d -> in_map W H s -> in_map W H (tgt s d) ->
  through_cost e i d s.1 s.2 c0 = Ok (thru i d s c0).
Proof using Hok.
  intros Hd Hs Ht. unfold through_cost, thru, tgt, in_map, W, H, g in *. simpl in Ht. rewrite !addeq.
  dcases Hd; cbn -[Z.add] in Ht |- *; try done;
  repeat (rewrite rdgrid_spec; [cbn [obind]|done|unfold in_map; simpl; lia]); done.
Qed.

Lemma touched_thru i d s : dtable !! i = Some d -> maxcost g (touched s (tgt s d)) (thru i d s (g (tgt s d))).
Proof.
  intros Hd. destruct s as [sx sy]. unfold touched, thru, tgt, maxcost. cbn [fst snd]. rewrite !addsub, !addeq.
  dcases Hd; cbn -[Z.add Z.max g];
  rewrite ?Z.add_0_r;
  (split;
   [intros x Hx; repeat (apply elem_of_cons in Hx as [->|Hx]; [lia|]); by apply elem_of_nil in Hx|]);
  first
  [ eexists; split; [apply elem_of_list_here|reflexivity]
  | match goal with |- context[Z.max (Z.max ?a ?b) ?c] =>
      destruct (Z.max_spec (Z.max a b) c) as [[_ ->]|[_ ->]];
      [|destruct (Z.max_spec a b) as [[_ ->]|[_ ->]]] end;
      eexists; (split; [|reflexivity]); simpl; rewrite ?elem_of_cons; auto ].
Qed.

Lemma touched_thru_rev i d s : dtable !! i = Some d -> maxcost g (touched (tgt s d) s) (thru i d s (g s)).
Proof.
  intros Hd. destruct s as [sx sy]. unfold touched, thru, tgt, maxcost. cbn [fst snd].
  replace (sx - (sx + d.1.1.1)) with (- d.1.1.1) by lia. replace (sy - (sy + d.1.1.2)) with (- d.1.1.2) by lia.
  rewrite !addeq.
  dcases Hd; cbn -[Z.add Z.max g];
  rewrite <- ?Z.add_assoc; cbn -[Z.add Z.max g];
  repeat match goal with |- context[sx + (?a + ?b)] => let c := eval compute in (a + b) in change (a + b) with c end;
  repeat match goal with |- context[sy + (?a + ?b)] => let c := eval compute in (a + b) in change (a + b) with c end;
  rewrite ?Z.add_0_r;
  (split;
   [intros x Hx; repeat (apply elem_of_cons in Hx as [->|Hx]; [lia|]); by apply elem_of_nil in Hx|]);
  first
  [ eexists; split; [apply elem_of_list_here|reflexivity]
  | match goal with |- context[Z.max (Z.max ?a ?b) ?c] =>
      destruct (Z.max_spec (Z.max a b) c) as [[_ ->]|[_ ->]];
      [|destruct (Z.max_spec a b) as [[_ ->]|[_ ->]]] end;
      eexists; (split; [|reflexivity]); simpl; rewrite ?elem_of_cons; auto ].
Qed.
End moves.

Lemma maxcost_unique g l m m' : maxcost g l m -> maxcost g l m' -> m = m'.
Proof. intros [A (x&Hx&<-)] [B (y&Hy&<-)]. specialize (A y Hy). specialize (B x Hx). lia. Qed.

Lemma dtable_move i d n : (n = 8 \/ n = 16)%nat -> take n dtable !! i = Some d ->
  dtable !! i = Some d /\ is_move (n =? 16)%nat d.1.1.1 d.1.1.2 (dxy_distance_mm i d.1.1.1 d.1.1.2).
Proof.
  intros Hn Hi. apply lookup_take_Some in Hi as [Hi Hlt]. split; [done|]. unfold is_move.
  dcases Hi; destruct Hn; subst; unfold dxy_distance_mm, COSTMULT; simpl; lia.
Qed.
Lemma move_dtable n dx dy len : (n = 8 \/ n = 16)%nat -> is_move (n =? 16)%nat dx dy len ->
  exists i d, take n dtable !! i = Some d /\ d.1.1 = (dx, dy) /\ dxy_distance_mm i dx dy = len.
Proof.
  intros Hn Hm.
  assert (((dx = 1 \/ dx = -1) /\ dy = 0 /\ len = 1000) \/ (dx = 0 /\ (dy = 1 \/ dy = -1) /\ len = 1000) \/
          ((dx = 1 \/ dx = -1) /\ (dy = 1 \/ dy = -1) /\ len = 1414) \/
          (n = 16%nat /\ (dx = 1 \/ dx = -1) /\ (dy = 2 \/ dy = -2) /\ len = 2236) \/
          (n = 16%nat /\ (dx = 2 \/ dx = -2) /\ (dy = 1 \/ dy = -1) /\ len = 2236)) as Hc.
  { destruct Hm as [[Hm ->]|[(H1&H2&->)|(Hn16&H1&H2&->)]].
    - assert (dx = 0 \/ dy = 0) as [->| ->] by lia; simpl in Hm; [right; left|left]; repeat split; lia.
    - right; right; left. repeat split; lia.
    - apply Nat.eqb_eq in Hn16. right; right; right.
      destruct (decide (Z.abs dx = 1)); [left|right]; repeat split; lia. }
  destruct Hc as [([->| ->]&->&->)|[(->&[->| ->]&->)|[([->| ->]&[->| ->]&->)|[(->&[->| ->]&[->| ->]&->)|(->&[->| ->]&[->| ->]&->)]]]].
  all: try (destruct Hn as [->| ->]).
  all: first
    [ exists 0%nat; eexists; split_and!; reflexivity | exists 1%nat; eexists; split_and!; reflexivity
    | exists 2%nat; eexists; split_and!; reflexivity | exists 3%nat; eexists; split_and!; reflexivity
    | exists 4%nat; eexists; split_and!; reflexivity | exists 5%nat; eexists; split_and!; reflexivity
    | exists 6%nat; eexists; split_and!; reflexivity | exists 7%nat; eexists; split_and!; reflexivity
    | exists 8%nat; eexists; split_and!; reflexivity | exists 9%nat; eexists; split_and!; reflexivity
    | exists 10%nat; eexists; split_and!; reflexivity | exists 11%nat; eexists; split_and!; reflexivity
    | exists 12%nat; eexists; split_and!; reflexivity | exists 13%nat; eexists; split_and!; reflexivity
    | exists 14%nat; eexists; split_and!; reflexivity | exists 15%nat; eexists; split_and!; reflexivity ].
Qed.
Lemma dtable_nodup n : NoDup ((fun d : dirT => d.1.1) <$> take n dtable).
Proof.
  rewrite fmap_take.
  assert (NoDup (take n ((fun d : dirT => d.1.1) <$> dtable) ++ drop n ((fun d : dirT => d.1.1) <$> dtable))) as Hn;
    [rewrite take_drop|apply NoDup_app in Hn; tauto].
  eapply bool_decide_eq_true_1. vm_compute. reflexivity.
Qed.

(** * Successors and predecessors of one state *)
Section neigh.
Context (e : nav) (Hok : nav_ok e) (s : Z * Z) (Hs : in_map (nW e) (nH e) s).
Let test := bTestBounds e s.1 s.2.
Let g := cellcost e.
Definition vtest (t : Z * Z) : bool := negb test || (IsWithinMapCell e t.1 t.2 && (g t <? nObs e)).
Definition succ_val (i : nat) (d : dirT) : option Z :=
  let t := tgt s d in
  if vtest t then
    let m := thru e i d s (g t) in if m >=? nObs e then None else Some ((m + 1) * dxy_distance_mm i d.1.1.1 d.1.1.2)
  else None.
Definition pred_val (i : nat) (d : dirT) : option Z :=
  let t := tgt s d in
  if vtest t then
    let m := thru e i d s (g s) in if m >=? nObs e then None else Some ((m + 1) * dxy_distance_mm i d.1.1.1 d.1.1.2)
  else None.

Lemma ext_same e' : ext e e' -> nav_ok e' -> IsWithinMapCell e' = IsWithinMapCell e /\ rdgrid e' = rdgrid e /\ nObs e' = nObs e /\
  (forall t, IsValidCell e' t.1 t.2 = IsValidCell e t.1 t.2) /\ through_cost e' = through_cost e.
Proof.
  destruct e, e'. unfold ext. cbn. intros (->&->&->&->&->&->&->&_) _. done.
Qed.
Lemma interior_in_map i d : dtable !! i = Some d -> test = false -> in_map (nW e) (nH e) (tgt s d).
Proof using Hs.
  intros Hd Ht. unfold test, bTestBounds in Ht. unfold in_map, tgt in *. simpl.
  dcases Hd; cbn [fst snd]; lia.
Qed.
Lemma vtest_in_map i d : dtable !! i = Some d -> vtest (tgt s d) = true -> in_map (nW e) (nH e) (tgt s d).
Proof using Hs.
  intros Hd Hv. unfold vtest in Hv. destruct test eqn:Et.
  - simpl in Hv. apply andb_true_iff in Hv as [Hv _]. by apply within_spec in Hv.
  - by eapply interior_in_map.
Qed.

(* the test at the head of the loop body *)
Lemma valid_head (t : Z * Z) : t = t ->
  (if test then IsValidCell e t.1 t.2 else Ok true) = (Ok (vtest t) : nres bool).
Proof using Hok Hs.
  intros _. unfold vtest. destruct test; [|done]. simpl. unfold IsValidCell.
  destruct (IsWithinMapCell e t.1 t.2) eqn:Ew; [|done]. apply within_spec in Ew. rewrite rdgrid_spec by done.
  simpl. by destruct t.
Qed.

Lemma succ_step_spec i d st : take (nDirs e) dtable !! i = Some d -> nav_ok st.1 -> ext e st.1 ->
  succ_step s.1 s.2 test i d st =
  match succ_val i d with
  | None => Ok st
  | Some c => do r <- GetStateFromCoord st.1 (tgt s d).1 (tgt s d).2; Ok (r.2, st.2 ++ [(r.1, c)])
  end.
Proof using Hok Hs.
  intros Hd Hok1 Hx. apply dtable_move in Hd as [Hd _]; [|apply (ok_dirs e Hok)].
  destruct (ext_same _ Hx Hok1) as (E1&E2&E3&E4&E5). unfold succ_step, succ_val.
  fold (tgt s d). pose proof (E4 (tgt s d)) as E6. unfold tgt in E6. cbn [fst snd] in E6. rewrite E6.
  pose proof (valid_head (tgt s d) eq_refl) as Hv. unfold tgt in Hv at 1 2. cbn [fst snd] in Hv. rewrite Hv. cbn [obind].
  destruct (vtest (tgt s d)) eqn:Ev; [|done]. cbn [negb].
  pose proof (vtest_in_map i d Hd Ev) as Ht. rewrite E2.
  rewrite rdgrid_spec by done. cbn [obind]. rewrite E5. fold (tgt s d). rewrite through_ok by done. cbn [obind]. rewrite E3.
  unfold g. fold (tgt s d). destruct (thru e i d s (cellcost e (tgt s d)) >=? nObs e); done.
Qed.
Lemma pred_step_spec i d st : take (nDirs e) dtable !! i = Some d -> nav_ok st.1 -> ext e st.1 ->
  pred_step (g s) s.1 s.2 test i d st =
  match pred_val i d with
  | None => Ok st
  | Some c => do r <- GetStateFromCoord st.1 (tgt s d).1 (tgt s d).2; Ok (r.2, st.2 ++ [(r.1, c)])
  end.
Proof using Hok Hs.
  intros Hd Hok1 Hx. apply dtable_move in Hd as [Hd _]; [|apply (ok_dirs e Hok)].
  destruct (ext_same _ Hx Hok1) as (E1&E2&E3&E4&E5). unfold pred_step, pred_val.
  pose proof (E4 (tgt s d)) as E6. unfold tgt in E6. cbn [fst snd] in E6. rewrite E6.
  pose proof (valid_head (tgt s d) eq_refl) as Hv. unfold tgt in Hv at 1 2. cbn [fst snd] in Hv. rewrite Hv. cbn [obind].
  destruct (vtest (tgt s d)) eqn:Ev; [|done]. cbn [negb].
  pose proof (vtest_in_map i d Hd Ev) as Ht.
  rewrite E5. rewrite through_ok by done. cbn [obind]. rewrite E3.
  unfold g. destruct (thru e i d s (cellcost e s) >=? nObs e); done.
Qed.

Lemma tgt_diff d : (tgt s d).1 - s.1 = d.1.1.1 /\ (tgt s d).2 - s.2 = d.1.1.2.
Proof. unfold tgt. simpl. lia. Qed.
Lemma tgt_diff' d : s.1 - (tgt s d).1 = - d.1.1.1 /\ s.2 - (tgt s d).2 = - d.1.1.2.
Proof. unfold tgt. simpl. lia. Qed.
Lemma is_move_opp b dx dy len : is_move b (- dx) (- dy) len <-> is_move b dx dy len.
Proof. unfold is_move. rewrite !Z.abs_opp. done. Qed.
Lemma tgt_of (t : Z * Z) d : d.1.1 = (t.1 - s.1, t.2 - s.2) -> tgt s d = t.
Proof. destruct d as [[[? ?] ?] ?], t. cbn. intros [= -> ->]. unfold tgt. cbn. f_equal; lia. Qed.
Lemma touched_here (a b : Z * Z) : b ∈ touched a b.
Proof. unfold touched. repeat case_match; apply elem_of_list_here. Qed.

Lemma succ_pure t c : (t, c) ∈ pure_list s succ_val 0 (take (nDirs e) dtable) <-> nedge e s t c.
Proof using Hok Hs.
  rewrite pure_list_elem. cbn [Nat.add]. split.
  - intros (j&d&Hj&Hv&->). apply dtable_move in Hj as [Hd Hm]; [|apply (ok_dirs e Hok)].
    unfold succ_val in Hv. destruct (vtest (tgt s d)) eqn:Ev; [|done].
    destruct (thru e j d s (g (tgt s d)) >=? nObs e) eqn:Eo; [done|]. injection Hv as <-.
    destruct (tgt_diff d) as [D1 D2]. destruct (touched_thru e j d s Hd) as [M1 M2].
    eexists _, _. rewrite D1, D2. split_and!; [exact Hm|by eapply vtest_in_map|exact M1|exact M2|unfold g in *; lia|done].
  - intros (len&m&Hm&Hin&M1&M2&Ho&->). destruct (move_dtable (nDirs e) _ _ _ (ok_dirs e Hok) Hm) as (i&d&Hi&Hd&Hl).
    exists i, d. pose proof (tgt_of t d Hd) as Et. split_and!; [done| |done].
    apply dtable_move in Hi as [Hi _]; [|apply (ok_dirs e Hok)].
    pose proof (touched_thru e i d s Hi) as HM. rewrite Et in HM.
    assert (thru e i d s (cellcost e t) = m) as Em by (eapply maxcost_unique; [exact HM|by split]).
    unfold succ_val. rewrite Et. unfold g. rewrite Em.
    assert (cellcost e t <= m) as Hle by (apply M1, touched_here).
    assert (vtest t = true) as ->.
    { unfold vtest, g. destruct test; [|done]. simpl. apply andb_true_iff. split; [|lia]. apply within_spec. by destruct t. }
    rewrite Z.geb_leb. destruct (nObs e <=? m) eqn:E; [lia|]. rewrite Hd. simpl. by rewrite Hl.
Qed.
(** Predecessors: the edges into s from in-map cells; a state near the border lists only traversable ones. *)
Lemma pred_pure t c : (t, c) ∈ pure_list s pred_val 0 (take (nDirs e) dtable) <->
  nedge e t s c /\ in_map (nW e) (nH e) t /\ (test = true -> g t < nObs e).
Proof using Hok Hs.
  rewrite pure_list_elem. cbn [Nat.add]. split.
  - intros (j&d&Hj&Hv&->). apply dtable_move in Hj as [Hd Hm]; [|apply (ok_dirs e Hok)].
    unfold pred_val in Hv. destruct (vtest (tgt s d)) eqn:Ev; [|done].
    destruct (thru e j d s (g s) >=? nObs e) eqn:Eo; [done|]. injection Hv as <-.
    destruct (tgt_diff' d) as [D1 D2]. destruct (touched_thru_rev e j d s Hd) as [M1 M2]. split.
    + eexists _, _. rewrite D1, D2. split_and!; [apply is_move_opp; exact Hm|done|exact M1|exact M2|unfold g in *; lia|done].
    + split; [by eapply vtest_in_map|]. intros Ht. unfold vtest in Ev. rewrite Ht in Ev. simpl in Ev.
      apply andb_true_iff in Ev as [_ Ev]. lia.
  - intros [(len&m&Hm&Hin&M1&M2&Ho&->) [Hti Hv]].
    assert (is_move (sixteen e) (t.1 - s.1) (t.2 - s.2) len) as Hm'.
    { apply is_move_opp. replace (- (t.1 - s.1)) with (s.1 - t.1) by lia. by replace (- (t.2 - s.2)) with (s.2 - t.2) by lia. }
    destruct (move_dtable (nDirs e) _ _ _ (ok_dirs e Hok) Hm') as (i&d&Hi&Hd&Hl).
    exists i, d. pose proof (tgt_of t d Hd) as Et. split_and!; [done| |done].
    apply dtable_move in Hi as [Hi _]; [|apply (ok_dirs e Hok)].
    pose proof (touched_thru_rev e i d s Hi) as HM. rewrite Et in HM.
    assert (thru e i d s (cellcost e s) = m) as Em by (eapply maxcost_unique; [exact HM|by split]).
    unfold pred_val. rewrite Et. unfold g. rewrite Em.
    assert (vtest t = true) as ->.
    { unfold vtest, g in *. destruct test; [|done]. simpl. apply andb_true_iff. split; [apply within_spec; by destruct t|].
      specialize (Hv eq_refl). lia. }
    rewrite Z.geb_leb. destruct (nObs e <=? m) eqn:E; [lia|]. rewrite Hd. simpl. by rewrite Hl.
Qed.
End neigh.

Lemma matches_listed e l q : Forall2 (matches e) l q -> forall t c, listed e l t c <-> (t, c) ∈ q.
Proof.
  intros HF t c. unfold listed. split.
  - intros (id&Hin&Hid). apply elem_of_list_lookup in Hin as [i Hi]. apply gcfs_id in Hid.
    destruct (Forall2_lookup_l _ _ _ _ _ HF Hi) as ([t' c']&Hq&[Ht Hc]). simpl in *. subst c'.
    rewrite Hid in Ht. injection Ht as <-. by eapply elem_of_list_lookup_2.
  - intros Hin. apply elem_of_list_lookup in Hin as [i Hi].
    destruct (Forall2_lookup_r _ _ _ _ _ HF Hi) as ([id c']&Hq&[Ht Hc]). simpl in *. subst c'.
    exists id. split; [by eapply elem_of_list_lookup_2|]. by apply gcfs_id.
Qed.
Lemma matches_nodup e l q : Forall2 (matches e) l q -> NoDup (q.*1) -> NoDup (l.*1).
Proof.
  intros HF. induction HF as [|[id c] [t c'] l q [Hm _] HF IH]; csimpl; [constructor|].
  intros Hnd. apply NoDup_cons in Hnd as [Hn Hnd]. constructor; [|auto]. intros Hin. apply Hn.
  apply elem_of_list_fmap in Hin as ([id' c'']&Heq&Hin). simpl in Heq. subst id'.
  apply elem_of_list_fmap. apply elem_of_list_lookup in Hin as [i Hi].
  destruct (Forall2_lookup_l _ _ _ _ _ HF Hi) as ([t' c1]&Hq&[Ht _]). simpl in *.
  exists (t', c1). split; [simpl; congruence|by eapply elem_of_list_lookup_2].
Qed.

Lemma GetSuccs_spec e id s : nav_ok e -> nTable e !! id = Some s -> in_map (nW e) (nH e) s -> id <> nGoal e ->
  exists l e', GetSuccs e id = Ok (l, e') /\ nav_ok e' /\ ext e e' /\ NoDup (l.*1) /\
    forall t c, listed e' l t c <-> nedge e s t c.
Proof.
  intros Hok Hid Hs Hg. unfold GetSuccs. destruct (id =? nGoal e)%nat eqn:E; [lia|].
  unfold GetCoordFromState. rewrite Hid. cbn [obind].
  destruct (dir_loop_spec s (succ_val e s) e _ (take (nDirs e) dtable) (succ_step_spec e Hok s Hs) (take (nDirs e) dtable)
     0 e [] ltac:(done) Hok (ext_refl e)) as (e'&l&E1&Hok'&Hx&HF).
  rewrite E1. cbn [obind]. exists l, e'. split_and!; auto.
  - eapply matches_nodup; [exact HF|]. apply pure_list_NoDup, dtable_nodup.
  - intros t c. rewrite (matches_listed _ _ _ HF). by apply succ_pure.
Qed.
Lemma GetSuccs_goal e : GetSuccs e (nGoal e) = Ok ([], e).
Proof. unfold GetSuccs. by rewrite Nat.eqb_refl. Qed.

Lemma nedge_target e s t c : nedge e s t c -> cellcost e t < nObs e.
Proof. intros (len&m&_&_&M1&_&Ho&_). specialize (M1 t (touched_here s t)). lia. Qed.

Lemma GetPreds_spec e id s : nav_ok e -> nTable e !! id = Some s -> in_map (nW e) (nH e) s ->
  exists l e', GetPreds e id = Ok (l, e') /\ nav_ok e' /\ ext e e' /\ NoDup (l.*1) /\
    forall t c, listed e' l t c <->
      nedge e t s c /\ in_map (nW e) (nH e) t /\ (bTestBounds e s.1 s.2 = true -> cellcost e t < nObs e).
Proof.
  intros Hok Hid Hs. unfold GetPreds. unfold GetCoordFromState. rewrite Hid. cbn [obind].
  rewrite rdgrid_spec by (try done; by destruct s). cbn [obind]. replace (s.1, s.2) with s by by destruct s.
  destruct (cellcost e s >=? nObs e) eqn:Ec.
  - exists [], e. split_and!; auto using ext_refl; [constructor|]. intros t c. split.
    + intros (i&Hi&_). by apply elem_of_nil in Hi.
    + intros [He _]. apply nedge_target in He. lia.
  - destruct (dir_loop_spec s (pred_val e s) e _ (take (nDirs e) dtable) (pred_step_spec e Hok s Hs) (take (nDirs e) dtable)
     0 e [] ltac:(done) Hok (ext_refl e)) as (e'&l&E1&Hok'&Hx&HF).
    rewrite E1. cbn [obind]. exists l, e'. split_and!; auto.
    + eapply matches_nodup; [exact HF|]. apply pure_list_NoDup, dtable_nodup.
    + intros t c. rewrite (matches_listed _ _ _ HF). by apply pred_pure.
Qed.
