(** Lemmas for C37 - C44: actions of a path, changed edges, histories of calls. *)
From Verif Require Import Base NavModel LatModel LatSpec LatProofs LatProofs2 LatProofs3 LatProofs4.
Local Open Scope Z_scope.

Lemma at_fmap e id u : at_pose e id u <-> (pose_of <$> lTab e) !! id = Some u.
Proof. rewrite list_lookup_fmap, fmap_Some. unfold at_pose. split; intros (en & ? & ?); exists en; done. Qed.
Definition retab (e : lat) (tab : list entry) (it : Z) : lat :=
  mkLat (lC e) (lGrid e) tab (lMapping e) (lHash e) (lLook e) (lBins e) (lStartC e) (lGoalC e) (lStart e) (lGoal e) it (lNeedS e) (lNeedG e).
Lemma retab_at e tab it id u : pose_of <$> tab = pose_of <$> lTab e -> at_pose (retab e tab it) id u <-> at_pose e id u.
Proof. intros E. rewrite !at_fmap. simpl. by rewrite E. Qed.
Lemma retab_linv e tab it : linv e -> pose_of <$> tab = pose_of <$> lTab e -> (forall id en, tab !! id = Some en -> eIter en <= it) -> 0 <= it -> linv (retab e tab it).
Proof.
  intros I E Hit H0. assert (A : forall id u, at_pose (retab e tab it) id u <-> at_pose e id u) by (intros; by apply retab_at).
  split; simpl; try apply I.
  - rewrite (li_map _ I). rewrite <- (fmap_length pose_of (lTab e)), <- E. by rewrite fmap_length.
  - intros id en En. destruct (proj1 (A id (pose_of en))) as (en' & En' & P'); [by exists en|]. apply (li_range _ I) in En'. unfold pose_of in P'. injection P' as <- <- <-. done.
  - intros i j a b Ea Eb P. destruct (proj1 (A i (pose_of a))) as (a' & Ea' & Pa'); [by exists a|]. destruct (proj1 (A j (pose_of b))) as (b' & Eb' & Pb'); [by exists b|].
    apply (li_inj _ I _ _ _ _ Ea' Eb'). congruence.
  - intros Hh x y t R id. rewrite (li_look _ I Hh) by done. symmetry. apply (A id (x, y, t)).
  - intros Hh b id. rewrite (li_bins _ I Hh). split.
    + intros (en & En & Hb). destruct (proj2 (A id (pose_of en))) as (en' & En' & P'); [by exists en|]. exists en'. split; [done|]. unfold pose_of in P'. injection P' as -> -> ->. done.
    + intros (en & En & Hb). destruct (proj1 (A id (pose_of en))) as (en' & En' & P'); [by exists en|]. exists en'. split; [done|]. unfold pose_of in P'. injection P' as -> -> ->. done.
  - done.
  - done.
Qed.

(** *** GetPredsofChangedEdges *)
Record marked (e : lat) (new : list nat) : Prop := {
  mk_inv : linv e; mk_nd : NoDup new;
  mk_iff : forall id, id ∈ new <-> exists en, lTab e !! id = Some en /\ eIter en = lIter e }.
Lemma affected_loop_spec cell l acc : forall e new, marked e new ->
  exists tab new', affected_loop e cell l (acc ++ new) = Ok (acc ++ new', retab e tab (lIter e)) /\ marked (retab e tab (lIter e)) new' /\
    pose_of <$> tab = pose_of <$> lTab e /\
    forall id, id ∈ new' <-> id ∈ new \/ exists s, s ∈ l /\ at_pose e id (s.1.1 + cell.1, s.1.2 + cell.2, s.2).
Proof.
  induction l as [|s l IH]; intros e new M.
  - exists (lTab e), new. assert (E : retab e (lTab e) (lIter e) = e) by (by destruct e). rewrite E. split_and!; try done.
    intros id. split; [by left|]. intros [?|(s & H & _)]; [done|]. by apply elem_of_nil in H.
  - simpl. pose proof M as [I ND Hiff]. destruct (lGet_spec e (s.1.1 + cell.1) (s.1.2 + cell.2) s.2 I) as (r & E & Hr). rewrite E. simpl. destruct r as [id|].
    2: { destruct (IH e new M) as (tab & new' & E' & M' & P & H). exists tab, new'. split_and!; try done. intros id. rewrite H. split.
      - intros [?|(s' & Hs & A)]; [by left|]. right. exists s'. split; [by right|done].
      - intros [?|(s' & [-> |Hs]%elem_of_cons & A)]; [by left| |right; eauto]. exfalso. assert (None = Some id) by (by apply Hr). done. }
    destruct (proj1 (Hr id) eq_refl) as (en & En & Pe). rewrite En. destruct (Z.ltb_spec (eIter en) (lIter e)) as [Hlt|Hge].
    + set (tab1 := <[id:=mkEnt (eX en) (eY en) (eT en) (lIter e)]> (lTab e)).
      assert (P1 : pose_of <$> tab1 = pose_of <$> lTab e).
      { unfold tab1. rewrite list_fmap_insert. apply list_insert_id. rewrite list_lookup_fmap, En. done. }
      assert (Lid : (id < length (lTab e))%nat) by (by eapply lookup_lt_Some).
      assert (M1 : marked (retab e tab1 (lIter e)) (new ++ [id])).
      { split.
        - apply retab_linv; [done|done| |apply I]. intros i en'. unfold tab1. rewrite list_lookup_insert_Some. intros [(_ & <- & _)|[_ H]]; [simpl; lia|]. by apply (li_iter _ I) in H.
        - apply NoDup_app. split_and!; [done| |apply NoDup_singleton]. intros i Hi ->%elem_of_list_singleton. apply Hiff in Hi as (en' & En' & Hit). rewrite En in En'. injection En' as <-. lia.
        - intros i. rewrite elem_of_app, elem_of_list_singleton, Hiff. simpl. unfold tab1. split.
          + intros [(en' & En' & Hit)| ->].
            * exists en'. split; [|done]. rewrite list_lookup_insert_ne; [done|]. intros ->. rewrite En in En'. injection En' as <-. lia.
            * eexists. split; [by apply list_lookup_insert|done].
          + intros (en' & En' & Hit). apply list_lookup_insert_Some in En' as [(-> & _)|[_ En']]; [by right|]. left. eauto. }
      destruct (IH _ _ M1) as (tab & new' & E' & M' & P & H). change (set_tab e tab1) with (retab e tab1 (lIter e)).
      rewrite <- app_assoc, E'. exists tab, new'. split_and!; [done|done|by rewrite P|].
      intros i. rewrite H, elem_of_app, elem_of_list_singleton. split.
      * intros [[?| ->]|(s' & Hs & A)]; [by left|right; exists s; split; [left|by exists en]|]. right. exists s'. split; [by right|]. by apply retab_at in A.
      * intros [?|(s' & [-> |Hs]%elem_of_cons & A)]; [by left; left|left; right|right; exists s'; split; [done|by apply retab_at]].
        apply Hr in A. congruence.
    + destruct (IH e new M) as (tab & new' & E' & M' & P & H). exists tab, new'. split_and!; try done. intros i. rewrite H. split.
      * intros [?|(s' & Hs & A)]; [by left|]. right. exists s'. split; [by right|done].
      * intros [?|(s' & [-> |Hs]%elem_of_cons & A)]; [by left| |right; eauto]. left. apply Hr in A. injection A as <-. apply Hiff. exists en. split; [done|].
        pose proof (li_iter _ I _ _ En). lia.
Qed.
Lemma changed_loop_spec cells acc : forall e new, marked e new ->
  exists tab new', changed_loop e cells (acc ++ new) = Ok (acc ++ new', retab e tab (lIter e)) /\ marked (retab e tab (lIter e)) new' /\
    pose_of <$> tab = pose_of <$> lTab e /\
    forall id, id ∈ new' <-> id ∈ new \/ exists cell s, cell ∈ cells /\ s ∈ cAffected (lC e) /\ at_pose e id (s.1.1 + cell.1, s.1.2 + cell.2, s.2).
Proof.
  induction cells as [|cell cells IH]; intros e new M.
  - exists (lTab e), new. assert (E : retab e (lTab e) (lIter e) = e) by (by destruct e). rewrite E. split_and!; try done.
    intros id. split; [by left|]. intros [?|(c & s & H & _)]; [done|]. by apply elem_of_nil in H.
  - simpl. destruct (affected_loop_spec cell (cAffected (lC e)) acc e new M) as (tab1 & new1 & E1 & M1 & P1 & H1). rewrite E1. simpl.
    destruct (IH _ _ M1) as (tab & new' & E' & M' & P & H). exists tab, new'. split_and!; [exact E'|exact M'|by rewrite P|].
    intros id. rewrite H, H1. simpl. split.
    + intros [[?|(s & Hs & A)]|(c & s & Hc & Hs & A)]; [by left|right; exists cell, s; split_and!; [left|done|done]|right; exists c, s; split_and!; [by right|done|by apply retab_at in A]].
    + intros [?|(c & s & [-> |Hc]%elem_of_cons & Hs & A)]; [by left; left|left; right; eauto|right; exists c, s; split_and!; [done|done|by apply retab_at]].
Qed.
Lemma lChanged_spec e cells acc : linv e ->
  exists new e', lChanged e cells acc = Ok (acc ++ new, e') /\ (exists tab, e' = retab e tab (lIter e + 1) /\ pose_of <$> tab = pose_of <$> lTab e) /\ linv e' /\ NoDup new /\
    forall id, id ∈ new <-> exists cell s, cell ∈ cells /\ s ∈ cAffected (lC e) /\ at_pose e id (s.1.1 + cell.1, s.1.2 + cell.2, s.2).
Proof.
  intros I. unfold lChanged. fold (retab e (lTab e) (lIter e + 1)). set (e1 := retab e (lTab e) (lIter e + 1)).
  assert (M : marked e1 []).
  { split; [|constructor|].
    - apply retab_linv; [done|done| |pose proof (li_iter0 _ I); lia]. intros id en En. apply (li_iter _ I) in En. lia.
    - intros id. split; [by intros H%elem_of_nil|]. intros (en & En & H). apply (li_iter _ I) in En. simpl in H. lia. }
  destruct (changed_loop_spec cells acc e1 [] M) as (tab & new & E & [I' ND _] & P & H). rewrite app_nil_r in E. exists new, (retab e1 tab (lIter e1)).
  split_and!; [exact E|by exists tab|done|done|]. intros id. rewrite H. split.
  - intros [?|(c & s & Hc & Hs & A)]; [by apply elem_of_nil in H0|]. exists c, s. done.
  - intros ?. by right.
Qed.

(** *** Which edges a change of cells can affect *)
Lemma via_agree N ps g1 g2 obs insc circ poly p u v c :
  (forall o, o = (0, 0) \/ o = (pX p, pY p) \/ o ∈ pInter p -> g1 !! shift u.1 o = g2 !! shift u.1 o) ->
  (forall o, o ∈ pInterm p -> o ∈ pInter p \/ o = (0, 0) \/ o = (pX p, pY p)) ->
  via N ps g1 obs insc circ poly p u v c -> via N ps g2 obs insc circ poly p u v c.
Proof.
  intros Hag Hsub (Pin & Ps & A1 & A2 & (X1 & X2 & X3 & X4 & X5) & m & [(cc & Hcc & Gcc) U] & Ec & Lt).
  assert (S0 : shift u.1 (0, 0) = u.1) by (unfold shift; destruct u as [[? ?] ?]; simpl; f_equal; lia).
  assert (Ag0 : g1 !! u.1 = g2 !! u.1) by (rewrite <- S0; apply Hag; tauto).
  assert (AgE : g1 !! shift u.1 (pX p, pY p) = g2 !! shift u.1 (pX p, pY p)) by (apply Hag; tauto).
  assert (AgI : forall o, o ∈ pInterm p -> g1 !! shift u.1 o = g2 !! shift u.1 o) by (intros o Ho; apply Hag; destruct (Hsub o Ho); tauto).
  assert (AgJ : forall o, o ∈ pInter p -> g1 !! shift u.1 o = g2 !! shift u.1 o) by (intros o Ho; apply Hag; tauto).
  assert (AgC : forall cell, (cell = u.1 \/ cell = shift u.1 (pX p, pY p) \/ exists o, o ∈ pInterm p /\ cell = shift u.1 o) -> g1 !! cell = g2 !! cell).
  { intros cell [-> |[-> |(o & Ho & ->)]]; auto. }
  unfold via. split_and!; try done.
  - unfold executable, free in *. split_and!.
    + by rewrite <- Ag0.
    + by rewrite <- AgE.
    + by rewrite <- AgE.
    + intros o Ho. rewrite <- AgI by done. auto.
    + intros Hp Hc o Ho. rewrite <- AgJ by done. apply X5; [done| |done]. destruct Hc as [?|(o' & v' & Ho' & G' & ?)]; [by left|]. right. exists o', v'. rewrite AgI by done. done.
  - exists m. split_and!; try done. split.
    + exists cc. split; [done|]. by rewrite <- AgC.
    + intros c' v' Hc'. rewrite <- AgC by done. eauto.
Qed.

Section run.
Context (N : Z) (k : nat) (ps : list prim) (OKps : prims_ok N k ps).
Notation good := (good N k ps).
Notation edge := (edge N ps).

Lemma lActions_spec path : forall e, good e -> (forall id, id ∈ path -> exists u, at_pose e id u) ->
  (forall n a b u v, path !! n = Some a -> path !! S n = Some b -> at_pose e a u -> at_pose e b v -> a <> lGoal e /\ exists p c, edge e p u v c) ->
  exists acts e', lActions e path = Ok (acts, e') /\ good e' /\ ext e e' /\ length acts = pred (length path) /\
    forall n a b t u v, path !! n = Some a -> path !! S n = Some b -> acts !! n = Some t -> at_pose e a u -> at_pose e b v ->
      exists p c, Z.of_nat t.1 = u.2 /\ of_angle u.2 ps !! t.2 = Some p /\ edge e p u v c /\ forall p' c', edge e p' u v c' -> c <= c'.
Proof.
  induction path as [|a path IH]; intros e Ge Hid Hst.
  - exists [], e. split_and!; try done. apply ext_refl.
  - destruct path as [|b path].
    { exists [], e. split_and!; try done. apply ext_refl. }
    destruct (Hid a) as [u Au]; [left|]. destruct (Hid b) as [v Av]; [right; left|].
    destruct (Hst 0%nat a b u v eq_refl eq_refl Au Av) as (Hg & p & c & Hp).
    destruct (lSuccs_spec N k ps OKps e a u Ge Au Hg) as (l & e1 & El & G1 & X1 & S1 & _ & Hl).
    pose proof (at_range _ _ _ _ _ _ Ge Au) as (_ & _ & Rt).
    assert (IN : exists q, (b, c, q) ∈ l).
    { destruct (edge_place _ _ _ _ _ _ _ Hp) as [i Ei]. exists (Z.to_nat u.2, i). apply Hl. exists p, v. split_and!; try done. by eapply at_ext. }
    assert (EL : lActions e (a :: b :: path) = do r <- lSuccs e a; match best_action r.1 b INFINITECOST None with None => Exn () | Some x => do rs <- lActions r.2 (b :: path); Ok (x :: rs.1, rs.2) end) by done.
    rewrite EL, El. cbn [obind fst snd].
    destruct (best_action_spec l b INFINITECOST None) as [[E H]|(c1 & t & E & Hin & Hle & Hmin)].
    { exfalso. destruct IN as [q Hq]. pose proof (H _ _ Hq). destruct Hp as (_ & _ & _ & _ & _ & m & _ & _ & Lt). lia. }
    rewrite E. destruct (IH e1 G1) as (acts & e' & Er & G' & X' & Len & Hacts).
    { intros id Hin'. destruct (Hid id) as [w Aw]; [by right|]. exists w. by eapply at_ext. }
    { intros n a' b' u' v' Ea Eb Aa Ab. destruct (Hid a') as [u2 Au2]; [right; by eapply elem_of_list_lookup_2|]. destruct (Hid b') as [v2 Av2]; [right; by eapply elem_of_list_lookup_2|].
      rewrite (at_fun _ _ _ _ Aa (at_ext _ _ _ _ X1 Au2)), (at_fun _ _ _ _ Ab (at_ext _ _ _ _ X1 Av2)).
      destruct (Hst (S n) a' b' u2 v2 Ea Eb Au2 Av2) as (Hg' & p' & c' & Hp'). split; [by rewrite (x_g _ _ X1)|]. exists p', c'. by apply (edge_ext _ _ e e1). }
    rewrite Er. cbn [obind fst snd]. exists (t :: acts), e'. split_and!; [done|done|by eapply ext_trans|simpl in *; lia|].
    intros n a' b' t' u' v' Ea Eb Et Aa Ab. destruct n as [|n].
    + simpl in Ea, Eb, Et. injection Ea as <-. injection Eb as <-. injection Et as <-. rewrite (at_fun _ _ _ _ Aa Au), (at_fun _ _ _ _ Ab Av).
      apply Hl in Hin as (q & w & Ht1 & Ep & Aw & Hq). pose proof (at_fun _ _ _ _ Aw (at_ext _ _ _ _ X1 Av)) as ->.
      exists q, c1. split_and!; [lia|done|done|]. intros p' c' Hp'. destruct (edge_place _ _ _ _ _ _ _ Hp') as [i Ei].
      eapply (Hmin c' (Z.to_nat u.2, i)). apply Hl. exists p', v. split_and!; try done.
    + simpl in Ea, Et. destruct (Hacts n a' b' t' u' v' Ea Eb Et (at_ext _ _ _ _ X1 Aa) (at_ext _ _ _ _ X1 Ab)) as (p' & c' & H1 & H2 & H3 & H4).
      exists p', c'. split_and!; try done; [by apply (edge_ext _ _ e e1)|]. intros p2 c2 H2'. eapply H4. by apply (edge_ext _ _ e e1).
Qed.
Lemma lActions_conv path : forall e acts e', good e -> (forall id, id ∈ path -> exists u, at_pose e id u) -> lActions e path = Ok (acts, e') ->
  forall n a b u v, path !! n = Some a -> path !! S n = Some b -> at_pose e a u -> at_pose e b v -> a <> lGoal e /\ exists p c, edge e p u v c.
Proof.
  induction path as [|a path IH]; intros e acts e' Ge Hid E n a' b' u v Ea Eb Au Av; [done|].
  destruct path as [|b path]. { destruct n; done. }
  destruct (Hid a) as [u0 Au0]; [left|].
  assert (EL : lActions e (a :: b :: path) = do r <- lSuccs e a; match best_action r.1 b INFINITECOST None with None => Exn () | Some x => do rs <- lActions r.2 (b :: path); Ok (x :: rs.1, rs.2) end) by done.
  rewrite EL in E. clear EL. apply obind_ok in E as ([l e1] & El & E). simpl fst in E. simpl snd in E.
  assert (Hg : a <> lGoal e).
  { intros ->. unfold lSuccs in El. rewrite Nat.eqb_refl in El. injection El as <- <-. simpl in E. discriminate. }
  destruct (lSuccs_spec N k ps OKps e a u0 Ge Au0 Hg) as (l' & e1' & El' & G1 & X1 & S1 & _ & Hl).
  rewrite El in El'. injection El' as <- <-.
  destruct (best_action_spec l b INFINITECOST None) as [[B H]|(c1 & t & B & Hin & Hle & Hmin)]; rewrite B in E; [done|].
  apply obind_ok in E as ([acts' e2] & Er & E). destruct n as [|n].
  - simpl in Ea, Eb. injection Ea as <-. injection Eb as <-. split; [done|]. apply Hl in Hin as (q & w & Ht1 & Ep & Aw & Hq).
    rewrite (at_fun _ _ _ _ Au Au0). rewrite (at_fun _ _ _ _ (at_ext _ _ _ _ X1 Av) Aw). eauto.
  - destruct (IH e1 acts' e2 G1) with (n := n) (a := a') (b := b') (u := u) (v := v) as (Hg' & p & c & Hp); try done.
    + intros id Hid'. destruct (Hid id) as [w Aw]; [by right|]. exists w. by eapply at_ext.
    + by eapply at_ext.
    + by eapply at_ext.
    + split; [by rewrite (x_g _ _ X1) in Hg'|]. exists p, c. by apply (edge_ext _ _ e e1).
Qed.

(** *** Histories *)
Definition args_goal (e : lat) : search_args := (lGrid e, cInsc (lC e), (lGoalC e).1, (lStartC e).1).
Definition args_start (e : lat) : search_args := (lGrid e, cInsc (lC e), (lStartC e).1, (lGoalC e).1).
Record sane (e : lat) : Prop := mkSane { s_good : good e; s_start : at_pose e (lStart e) (lStartC e); s_goal : at_pose e (lGoal e) (lGoalC e) }.
Lemma sane_ext e e' : sane e -> good e' -> ext e e' -> sane e'.
Proof. intros [G S T] G' X. split; [done| |]; rewrite ?(x_s _ _ X), ?(x_sc _ _ X), ?(x_g _ _ X), ?(x_gc _ _ X); by eapply at_ext. Qed.
Lemma linv_flags e e' : linv e -> lC e' = lC e -> grid_ok (cW (lC e)) (cH (lC e)) (lGrid e') -> lTab e' = lTab e -> lMapping e' = lMapping e -> lHash e' = lHash e -> lLook e' = lLook e -> lBins e' = lBins e -> lIter e' = lIter e -> linv e'.
Proof. intros [? ? ? ? ? ? ? ? ? ? ?] E1 E2 E3 E4 E5 E6 E7 E8. split; rewrite ?E1, ?E3, ?E4, ?E5, ?E6, ?E7, ?E8; try done. Qed.
Lemma grid_ok_insert w h g x y v : grid_ok w h g -> 0 <= x < w -> 0 <= y < h -> 0 <= v <= 255 -> grid_ok w h (<[(x, y) := v]> g).
Proof.
  intros [A B] Hx Hy Hv. split.
  - intros x' y' Hx' Hy'. destruct (decide ((x', y') = (x, y))) as [E|E]; [rewrite E, lookup_insert; eauto|rewrite lookup_insert_ne by done; auto].
  - intros x' y' v'. destruct (decide ((x', y') = (x, y))) as [E|E]; [rewrite E, lookup_insert; intros [= <-]; injection E as -> ->; done|rewrite lookup_insert_ne by done; auto].
Qed.
Lemma grid_ok_map w h m : (forall i, 0 <= m i <= 255) -> grid_ok w h (gridof w h m).
Proof.
  intros Hm. split.
  - intros x y Hx Hy. rewrite gridof_lookup. rewrite decide_True by done. eauto.
  - intros x y v. rewrite gridof_lookup. case_decide; [|done]. intros [= <-]. split_and!; try apply Hm; lia.
Qed.
(** What one call keeps: the state ids and their poses. *)
Definition keeps (e e' : lat) : Prop := lC e' = lC e /\ forall id u, at_pose e id u -> at_pose e' id u.
Lemma ext_keeps e e' : ext e e' -> keeps e e'.
Proof. intros X. split; [apply X|]. intros id u. by apply at_ext. Qed.
(** The effect of a call on the flags. *)
Definition tracks (e : lat) (s g : option search_args) : Prop := (lNeedS e = false -> s = Some (args_start e)) /\ (lNeedG e = false -> g = Some (args_goal e)).
Lemma ext_tracks e e' s g : ext e e' -> tracks e s g -> tracks e' s g.
Proof. intros X [A B]. unfold tracks, args_start, args_goal. rewrite (x_ns _ _ X), (x_ng _ _ X), (x_C _ _ X), (x_grid _ _ X), (x_sc _ _ X), (x_gc _ _ X). done. Qed.
Lemma perform_spec e a : sane e -> allowed e a -> exists e', perform e a = Ok e' /\ sane e' /\ keeps e e' /\
  forall s g, tracks e s g -> tracks e' (searched e a false s) (searched e a true g).
Proof.
  intros S Ha. pose proof S as [Ge Ss Sg]. pose proof Ge as [I C].
  assert (EXT : forall e', good e' -> ext e e' -> sane e' /\ keeps e e' /\ (forall s g, tracks e s g -> tracks e' s g)).
  { intros e' G' X. split_and!; [by eapply sane_ext|by apply ext_keeps|by intros s g; apply ext_tracks]. }
  destruct a as [x y t|id|id|id|id|x y v|m|x y t|x y t|b|cells]; simpl in Ha.
  - destruct (lState_spec e x y t I) as (id & e' & en & E & I' & X & _). { by apply inrange_iff. }
    simpl. rewrite E. simpl. exists e'. split; [done|]. apply EXT; [|done]. by eapply good_ext.
  - destruct Ha as [u Au]. simpl. destruct (decide (id = lGoal e)) as [-> |Hg].
    + unfold lSuccs. rewrite Nat.eqb_refl. simpl. exists e. split; [done|]. apply EXT; [done|apply ext_refl].
    + destruct (lSuccs_spec N k ps OKps e id u Ge Au Hg) as (l & e' & E & G' & X & _). rewrite E. simpl. exists e'. split; [done|]. by apply EXT.
  - destruct Ha as [u Au]. simpl. destruct (lPreds_in N k ps OKps e id u Ge Au) as (l & e' & E & G' & X & _). rewrite E. simpl. exists e'. split; [done|]. by apply EXT.
  - destruct Ha as [u Au]. simpl. destruct (decide (id = lGoal e)) as [-> |Hg].
    + unfold lLazySuccs. rewrite Nat.eqb_refl. simpl. exists e. split; [done|]. apply EXT; [done|apply ext_refl].
    + destruct (lLazySuccs_spec N k ps OKps e id u [] Ge Au Hg) as (l & e' & E & G' & X & _). rewrite E. simpl. exists e'. split; [done|]. by apply EXT.
  - destruct Ha as [u Au]. simpl. destruct (lLazyPreds_spec N k ps OKps e id u [] Ge Au) as (l & e' & E & G' & X & _). rewrite E. simpl. exists e'. split; [done|]. by apply EXT.
  - destruct Ha as (Hx & Hy & Hv). simpl. unfold lUpdate. destruct (proj1 (li_grid _ I) x y Hx Hy) as [v0 E0]. rewrite E0. eexists. split; [done|]. split_and!; try done.
    split; [split; [|done]|done|done]. eapply (linv_flags e); try done. simpl. apply grid_ok_insert; try done. apply I.
  - simpl. eexists. split; [done|]. split_and!; try done. split; [split; [|done]|done|done]. eapply (linv_flags e); try done. simpl. by apply grid_ok_map.
  - simpl. unfold lSetStart. destruct (lWithin e x y) eqn:Hw; simpl. 2: { exists e. split; [done|]. apply EXT; [done|apply ext_refl]. }
    apply lWithin_iff in Hw. destruct (lState_spec e x y t I) as (id & e' & en & E & I' & X & T & P). { apply inrange_iff. tauto. }
    rewrite E. simpl. eexists. split; [done|]. assert (G' : good e') by (by eapply good_ext). pose proof (sane_ext _ _ S G' X) as [_ S1 S2]. split_and!.
    + split; simpl; [|by exists en|done]. split; [|apply G']. by eapply (linv_flags e'); try done; apply I'.
    + split; [apply X|]. intros i u Ai. by apply (at_ext e e').
    + intros s g [T1 T2]%(ext_tracks _ _ _ _ X). unfold searched, tracks, args_start, args_goal in *. simpl.
      destruct (Nat.eqb_spec (lStart e') id) as [Eid|]; simpl; rewrite ?orb_true_r, ?orb_false_r; [|done].
      assert (EC : lStartC e' = (x, y, t)). { rewrite Eid in S1. eapply at_fun; [exact S1|]. by exists en. }
      rewrite EC in *. done.
  - simpl. unfold lSetGoal. destruct (lWithin e x y) eqn:Hw; simpl. 2: { exists e. split; [done|]. apply EXT; [done|apply ext_refl]. }
    apply lWithin_iff in Hw. destruct (lState_spec e x y t I) as (id & e' & en & E & I' & X & T & P). { apply inrange_iff. tauto. }
    rewrite E. simpl. eexists. split; [done|]. assert (G' : good e') by (by eapply good_ext). pose proof (sane_ext _ _ S G' X) as [_ S1 S2]. split_and!.
    + split; simpl; [|done|by exists en]. split; [|apply G']. by eapply (linv_flags e'); try done; apply I'.
    + split; [apply X|]. intros i u Ai. by apply (at_ext e e').
    + intros s g [T1 T2]%(ext_tracks _ _ _ _ X). unfold searched, tracks, args_start, args_goal in *. simpl.
      destruct (Nat.eqb_spec (lGoal e') id) as [Eid|]; simpl; rewrite ?orb_true_r, ?orb_false_r; [|done].
      assert (EC : lGoalC e' = (x, y, t)). { rewrite Eid in S2. eapply at_fun; [exact S2|]. by exists en. }
      rewrite EC in *. done.
  - simpl. eexists. split; [done|]. unfold lEnsure. destruct b; [destruct (lNeedG e) eqn:En|destruct (lNeedS e) eqn:En]; simpl; split_and!; try done.
    + split; [split; [|done]|done|done]. by eapply (linv_flags e); try done; apply I.
    + intros s g [T1 T2]. split; [exact T1|done].
    + split; [split; [|done]|done|done]. by eapply (linv_flags e); try done; apply I.
    + intros s g [T1 T2]. split; [done|exact T2].
  - simpl. destruct (lChanged_spec e cells [] I) as (new & e' & E & (tab & -> & P) & I' & _). rewrite E. simpl. eexists. split; [done|]. split_and!; try done.
    + split; simpl; [by split|by apply retab_at|by apply retab_at].
    + split; [done|]. intros i u Ai. by apply retab_at.
Qed.
Lemma lInit_ok c m st gl : cfg_ok N k ps c -> (forall i, 0 <= m i <= 255) ->
  (inrange c st.1.1 st.1.2 st.2 = true /\ inrange c gl.1.1 gl.1.2 gl.2 = true -> exists e, lInit c m st gl = Ok e) /\
  forall e, lInit c m st gl = Ok e -> sane e /\ lC e = c /\ lNeedS e = true /\ lNeedG e = true /\ lStartC e = st /\ lGoalC e = gl.
Proof.
  intros C Hm. pose proof (po_N _ _ _ OKps) as HN. pose proof (co_N _ _ _ _ C) as EN.
  assert (M : inrange c st.1.1 st.1.2 st.2 = true -> inrange c gl.1.1 gl.1.2 gl.2 = true -> exists e, lInit c m st gl = Ok e /\ sane e /\ lC e = c /\ lNeedS e = true /\ lNeedG e = true /\ lStartC e = st /\ lGoalC e = gl).
  { intros R1 R2. unfold lInit. rewrite R1, R2. simpl.
    set (e0 := mkLat c (gridof (cW c) (cH c) m) [] 0 (negb (maxsize c <=? 100000000)) ∅ ∅ st gl 0 0 0 true true).
    pose proof (proj1 (inrange_iff _ _ _ _) R1) as (B1 & B2 & B3).
    assert (I0 : linv e0).
    { split; simpl; try done; try lia.
      - by apply grid_ok_map.
      - intros _ x y t _ id. rewrite lookup_empty. split; [done|]. by intros (en & H & _).
      - intros _ b id. rewrite lookup_empty. simpl. split; [by intros H%elem_of_nil|]. by intros (en & H & _). }
    destruct (lState_spec e0 st.1.1 st.1.2 st.2 I0 R1) as (i & e1 & en & E1 & I1 & X1 & T1 & P1). rewrite E1. simpl.
    destruct (lState_spec e1 gl.1.1 gl.1.2 gl.2 I1) as (j & e2 & en2 & E2 & I2 & X2 & T2 & P2). { by rewrite (x_C _ _ X1). }
    rewrite E2. simpl. eexists. split; [done|]. pose proof (ext_trans _ _ _ X1 X2) as X. split_and!; simpl.
    - split; simpl.
      + split; simpl; [|by rewrite (x_C _ _ X)]. by eapply (linv_flags e2); try done; apply I2.
      + eapply (at_ext e1 e2); [done|]. exists en. split; [done|]. rewrite P1, (x_sc _ _ X). simpl. by destruct st as [[? ?] ?].
      + exists en2. split; [done|]. rewrite P2, (x_gc _ _ X). simpl. by destruct gl as [[? ?] ?].
    - apply X. - apply X. - apply X. - apply X. - apply X. }
  split; [intros [R1 R2]; destruct (M R1 R2) as (e & E & _); eauto|].
  intros e E. destruct (inrange c st.1.1 st.1.2 st.2) eqn:R1; [|unfold lInit in E; by rewrite R1 in E].
  destruct (inrange c gl.1.1 gl.1.2 gl.2) eqn:R2; [|unfold lInit in E; rewrite R2, orb_true_r in E; done].
  destruct (M eq_refl eq_refl) as (e' & E' & H). rewrite E in E'. injection E' as <-. exact H.
Qed.
Lemma hist_sane e s g : hist N k ps e s g -> sane e /\ tracks e s g.
Proof.
  induction 1 as [W H nonuni obs insc circ poly c m st gl e _ Ec Hm Ei|e s g a e' Hh [S T] Ha E].
  - destruct (precompute_ok N k ps OKps W H nonuni obs insc circ poly) as (c' & Ec' & C & _). rewrite Ec in Ec'. injection Ec' as <-.
    destruct (proj2 (lInit_ok c m st gl C Hm) e Ei) as (S & _ & N1 & N2 & _). split; [done|]. split; congruence.
  - destruct (perform_spec e a S Ha) as (e2 & E2 & S2 & _ & T2). rewrite E in E2. injection E2 as <-. auto.
Qed.
Lemma later_keeps e e' : sane e -> later e e' -> sane e' /\ keeps e e'.
Proof.
  intros S L. induction L as [e|e e' a e'' L IH Ha E]; [done|]. destruct (IH S) as [S' [K1 K2]]. destruct (perform_spec e' a S' Ha) as (e2 & E2 & S2 & [K3 K4] & _). rewrite E in E2. injection E2 as <-.
  split; [done|]. split; [congruence|auto].
Qed.
End run.
