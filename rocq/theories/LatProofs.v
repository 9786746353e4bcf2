(** Lemmas for C37 - C44: the state table, the cost of an action, the tables of actions. *)
From Verif Require Import Base NavModel LatModel LatSpec.
Local Open Scope Z_scope.

(** ** Small facts *)
Lemma schar_id z : -128 <= z < 128 -> schar z = z.
Proof. intros H. unfold schar. rewrite Z.mod_small; lia. Qed.
Lemma toi32_id z : 0 <= z <= 2147483647 -> toi32 (u32 z) = z.
Proof. intros H. unfold toi32, u32. rewrite (Z.mod_small z); [|lia]. rewrite Z.mod_small; lia. Qed.
Lemma inrange_iff c x y t : inrange c x y t = true <-> 0 <= x < cW c /\ 0 <= y < cH c /\ 0 <= t < cN c.
Proof. unfold inrange. split; intros H; lia. Qed.
Lemma lWithin_iff e x y : lWithin e x y = true <-> 0 <= x < cW (lC e) /\ 0 <= y < cH (lC e).
Proof. unfold lWithin. split; intros H; lia. Qed.
Lemma xytindex_bound c x y t : inrange c x y t = true -> 0 <= xytindex c x y t < maxsize c.
Proof. rewrite inrange_iff. unfold xytindex, maxsize. intros (Hx & Hy & Ht).
  assert (0 <= x + y * cW c < cW c * cH c) by nia.
  replace (t + x * cN c + y * cW c * cN c) with (t + (x + y * cW c) * cN c) by lia.
  set (u := x + y * cW c) in *. set (v := cW c * cH c) in *. clearbody u v. nia.
Qed.
Lemma xytindex_inj c x y t x' y' t' : inrange c x y t = true -> inrange c x' y' t' = true ->
  xytindex c x y t = xytindex c x' y' t' -> x = x' /\ y = y' /\ t = t'.
Proof.
  rewrite !inrange_iff. unfold xytindex. intros (Hx & Hy & Ht) (Hx' & Hy' & Ht') E.
  assert (A : (x + y * cW c) = (x' + y' * cW c) /\ t = t').
  { assert (E1 : cN c * (x + y * cW c) + t = cN c * (x' + y' * cW c) + t') by lia.
    destruct (Z.div_mod_unique (cN c) (x + y * cW c) (x' + y' * cW c) t t'); [lia..|]. tauto. }
  destruct A as [A ->].
  assert (E1 : cW c * y + x = cW c * y' + x') by lia.
  destruct (Z.div_mod_unique (cW c) y y' x x'); [lia..|]. tauto.
Qed.
Lemma normtheta_ok c t : 0 < cN c -> - cN c <= t < cN c -> normtheta c t = Ok (t mod cN c).
Proof.
  intros HN Ht. unfold normtheta.
  assert (E : t mod cN c = if t <? 0 then t + cN c else t).
  { destruct (Z.ltb_spec t 0).
    - symmetry. apply (Z.mod_unique _ _ (-1)); lia.
    - apply Z.mod_small; lia. }
  rewrite E. destruct (cNonUni c).
  - destruct (Z.ltb_spec t 0); f_equal;
    [destruct (t + cN c >=? cN c) eqn:Q | destruct (t >=? cN c) eqn:Q]; lia.
  - destruct (Z.eqb_spec (cN c) 0); [lia|]. f_equal.
    destruct (Z.ltb_spec t 0), (t >=? 0) eqn:Q; try lia.
    + destruct (decide (t = - cN c)) as [-> |].
      * rewrite Z.rem_opp_l, Z.rem_same by lia. simpl. rewrite Z.rem_same by lia. lia.
      * assert (A : Z.rem t (cN c) = t).
        { rewrite <- (Z.opp_involutive t). rewrite Z.rem_opp_l by lia. rewrite (Z.rem_small (- t)) by lia. done. }
        rewrite A. rewrite Z.rem_small; lia.
    + apply Z.rem_small; lia.
Qed.

(** ** The map *)
Lemma gridof_lookup w h m x y : gridof w h m !! (x, y) = if decide (0 <= x < w /\ 0 <= y < h) then Some (m (x + y * w)) else None.
Proof.
  unfold gridof. case_decide as D.
  - apply elem_of_list_to_map_1'.
    + intros v. rewrite elem_of_list_fmap. intros (c & E & _). by simplify_eq/=.
    + rewrite elem_of_list_fmap. exists (x, y). split; [done|].
      rewrite elem_of_list_bind. exists y. rewrite elem_of_list_fmap. split; [exists x; split; [done|]|]; rewrite elem_of_seqZ; lia.
  - apply not_elem_of_list_to_map_1. intros Hin. apply D. clear D.
    rewrite elem_of_list_fmap in Hin. destruct Hin as ([c v] & E & Hin). simpl in E. subst c.
    rewrite elem_of_list_fmap in Hin. destruct Hin as (c & E & Hin). simplify_eq/=.
    rewrite elem_of_list_bind in Hin. destruct Hin as (y' & Hin & Hy). rewrite elem_of_list_fmap in Hin. destruct Hin as (x' & E & Hx).
    rewrite elem_of_seqZ in Hx, Hy. simplify_eq/=. lia.
Qed.

(** ** The invariant *)
Definition grid_ok (w h : Z) (g : gmap (Z * Z) Z) : Prop :=
  (forall x y, 0 <= x < w -> 0 <= y < h -> exists v, g !! (x, y) = Some v) /\
  (forall x y v, g !! (x, y) = Some v -> 0 <= x < w /\ 0 <= y < h /\ 0 <= v <= 255).
Record linv (e : lat) : Prop := {
  li_W : 0 < cW (lC e); li_H : 0 < cH (lC e); li_N : 1 <= cN (lC e) <= 128;
  li_grid : grid_ok (cW (lC e)) (cH (lC e)) (lGrid e);
  li_map : lMapping e = length (lTab e);
  li_range : forall id en, lTab e !! id = Some en -> inrange (lC e) (eX en) (eY en) (eT en) = true;
  li_inj : forall i j a b, lTab e !! i = Some a -> lTab e !! j = Some b -> pose_of a = pose_of b -> i = j;
  li_look : lHash e = false -> forall x y t, inrange (lC e) x y t = true -> forall id,
    lLook e !! xytindex (lC e) x y t = Some id <-> exists en, lTab e !! id = Some en /\ pose_of en = (x, y, t);
  li_bins : lHash e = true -> forall b id,
    id ∈ default [] (lBins e !! b) <-> exists en, lTab e !! id = Some en /\ lhashbin (eX en) (eY en) (eT en) = b;
  li_iter : forall id en, lTab e !! id = Some en -> eIter en <= lIter e;
  li_iter0 : 0 <= lIter e
}.
(** What the calls that only look for or create states leave alone. *)
Record ext (e e' : lat) : Prop := {
  x_C : lC e' = lC e; x_grid : lGrid e' = lGrid e; x_hash : lHash e' = lHash e;
  x_sc : lStartC e' = lStartC e; x_gc : lGoalC e' = lGoalC e; x_s : lStart e' = lStart e; x_g : lGoal e' = lGoal e;
  x_iter : lIter e' = lIter e; x_ns : lNeedS e' = lNeedS e; x_ng : lNeedG e' = lNeedG e;
  x_tab : exists suf, lTab e' = lTab e ++ suf
}.
Lemma ext_refl e : ext e e.
Proof. split; try done. exists []. by rewrite app_nil_r. Qed.
Lemma ext_trans a b c : ext a b -> ext b c -> ext a c.
Proof.
  intros [? ? ? ? ? ? ? ? ? ? [s1 E1]] [? ? ? ? ? ? ? ? ? ? [s2 E2]]. split; try congruence. exists (s1 ++ s2). rewrite E2, E1. by rewrite app_assoc.
Qed.
Lemma ext_tab e e' id en : ext e e' -> lTab e !! id = Some en -> lTab e' !! id = Some en.
Proof. intros [? ? ? ? ? ? ? ? ? ? [s ->]] H. by apply lookup_app_l_Some. Qed.

Lemma lbin_search_spec e b x y t : (forall id, id ∈ b -> exists en, lTab e !! id = Some en) ->
  exists r, lbin_search e b x y t = Ok r /\
    match r with Some id => id ∈ b /\ (exists en, lTab e !! id = Some en /\ pose_of en = (x, y, t))
               | None => forall id en, id ∈ b -> lTab e !! id = Some en -> pose_of en <> (x, y, t) end.
Proof.
  induction b as [|i b IH]; intros Hb.
  - exists None. split; [done|]. intros ? ? H. by apply elem_of_nil in H.
  - simpl. destruct (Hb i) as [en E]; [left|]. rewrite E.
    destruct ((eX en =? x) && (eY en =? y) && (eT en =? t)) eqn:Q.
    + exists (Some i). split; [done|]. split; [left|]. exists en. split; [done|]. unfold pose_of. f_equal; [f_equal|]; lia.
    + destruct IH as (r & Er & Hr). { intros id H. apply Hb. by right. }
      exists r. split; [done|]. destruct r as [id|].
      * destruct Hr as [H1 H2]. split; [by right|done].
      * intros id en' Hin E'. apply elem_of_cons in Hin as [-> |Hin]; [|eauto].
        rewrite E in E'. injection E' as <-. unfold pose_of. intros [= ? ? ?]. lia.
Qed.
Lemma lGet_spec e x y t : linv e ->
  exists r, lGet e x y t = Ok r /\ forall id, r = Some id <-> exists en, lTab e !! id = Some en /\ pose_of en = (x, y, t).
Proof.
  intros I. unfold lGet. destruct (lHash e) eqn:Hh.
  - destruct (lbin_search_spec e (default [] (lBins e !! lhashbin x y t)) x y t) as (r & E & Hr).
    { intros id Hid. apply (li_bins _ I Hh) in Hid as (en & ? & _). eauto. }
    exists r. split; [done|]. intros id. split.
    + intros ->. by destruct Hr.
    + intros (en & En & P). destruct r as [id'|].
      * destruct Hr as (_ & en' & En' & P'). f_equal. apply (li_inj _ I _ _ _ _ En' En). congruence.
      * exfalso. apply (Hr id en); [|done|done]. apply (li_bins _ I Hh). exists en. split; [done|].
        unfold pose_of in P. by simplify_eq.
  - destruct (inrange (lC e) x y t) eqn:R; simpl.
    + eexists. split; [done|]. intros id. by apply (li_look _ I Hh).
    + exists None. split; [done|]. intros id. split; [done|]. intros (en & En & P).
      pose proof (li_range _ I _ _ En) as R'. unfold pose_of in P. simplify_eq. congruence.
Qed.
Lemma lCreate_spec e x y t : linv e -> inrange (lC e) x y t = true -> (forall id en, lTab e !! id = Some en -> pose_of en <> (x, y, t)) ->
  exists e', lCreate e x y t = Ok (length (lTab e), e') /\ linv e' /\ ext e e' /\ lTab e' = lTab e ++ [mkEnt x y t 0].
Proof.
  intros I R Hn. pose proof (proj1 (inrange_iff _ _ _ _) R) as (Rx & Ry & Rt). pose proof (li_N _ I) as HN.
  pose proof (xytindex_bound _ _ _ _ R) as RI.
  unfold lCreate. rewrite schar_id by lia.
  assert (G : forall e', e' = with_tab e (lTab e ++ [mkEnt x y t 0]) (S (lMapping e)) (lLook e') (lBins e') ->
    (lHash e = false -> lLook e' = <[xytindex (lC e) x y t := length (lTab e)]> (lLook e)) ->
    (lHash e = true -> lBins e' = <[lhashbin x y t := default [] (lBins e !! lhashbin x y t) ++ [length (lTab e)]]> (lBins e)) ->
    linv e' /\ ext e e' /\ lTab e' = lTab e ++ [mkEnt x y t 0]).
  { intros e' E HL HB. assert (ET : lTab e' = lTab e ++ [mkEnt x y t 0]) by (by rewrite E).
    assert (EC : lC e' = lC e) by (by rewrite E). assert (EH : lHash e' = lHash e) by (by rewrite E).
    assert (LK : forall id en, lTab e' !! id = Some en <-> lTab e !! id = Some en \/ id = length (lTab e) /\ en = mkEnt x y t 0).
    { intros id en. rewrite ET. rewrite lookup_app_Some. split.
      - intros [H|[H1 H2]]; [by left|]. apply list_lookup_singleton_Some in H2 as [H2 H3]. right. split; [lia|congruence].
      - intros [H|[-> ->]]; [by left|]. right. split; [done|]. by rewrite Nat.sub_diag. }
    split_and!; [|split; try (by rewrite E); [by exists [mkEnt x y t 0]]|done].
    split; rewrite ?EC, ?EH.
    - apply I.
    - apply I.
    - apply I.
    - rewrite E. apply I.
    - rewrite ET, app_length. rewrite E. simpl. rewrite (li_map _ I). lia.
    - intros id en [H|[-> ->]]%LK; [by apply (li_range _ I) in H|done].
    - intros i j a b [Ha|[-> ->]]%LK [Hb|[-> ->]]%LK P; [by eapply (li_inj _ I)| | |done].
      + exfalso. by apply (Hn _ _ Ha).
      + exfalso. symmetry in P. by apply (Hn _ _ Hb).
    - intros Hh x' y' t' R' id. rewrite (HL Hh). destruct (decide ((x', y', t') = (x, y, t))) as [P|P].
      + injection P as -> -> ->. rewrite lookup_insert. split.
        * intros [= <-]. eexists. split; [apply LK; by right|done].
        * intros (en & [En|[-> ->]]%LK & Pe); [by exfalso; apply (Hn _ _ En)|done].
      + rewrite lookup_insert_ne by (intros Q; apply xytindex_inj in Q; [|done..]; destruct Q as (-> & -> & ->); done).
        rewrite (li_look _ I Hh) by done. split.
        * intros (en & En & Pe). exists en. split; [apply LK; by left|done].
        * intros (en & [En|[-> ->]]%LK & Pe); [eauto|]. unfold pose_of in Pe. simpl in Pe. congruence.
    - intros Hh b id. rewrite (HB Hh). destruct (decide (b = lhashbin x y t)) as [-> |Hb].
      + rewrite lookup_insert. simpl. rewrite elem_of_app, elem_of_list_singleton, (li_bins _ I Hh). split.
        * intros [(en & En & Pe)| ->]; [exists en; split; [apply LK; by left|done]|]. eexists. split; [apply LK; by right|done].
        * intros (en & [En|[-> ->]]%LK & Pe); [left; eauto|by right].
      + rewrite lookup_insert_ne by done. rewrite (li_bins _ I Hh). split.
        * intros (en & En & Pe). exists en. split; [apply LK; by left|done].
        * intros (en & [En|[-> ->]]%LK & Pe); [eauto|]. simpl in Pe. congruence.
    - intros id en [En|[-> ->]]%LK; rewrite E; simpl; [by apply (li_iter _ I) in En|]. apply I.
    - rewrite E. apply I. }
  destruct (lHash e) eqn:Hh.
  - simpl. rewrite (li_map _ I). destruct (Nat.ltb_spec (length (lTab e)) (S (length (lTab e)))); [|lia].
    rewrite Nat.sub_0_r, Nat.eqb_refl.
    eexists. split; [done|]. apply G; [by rewrite (li_map _ I)|done|done].
  - destruct (Z.ltb_spec (xytindex (lC e) x y t) 0); [lia|]. destruct (xytindex (lC e) x y t >=? maxsize (lC e)) eqn:Q; [lia|].
    simpl. rewrite (li_map _ I). destruct (Nat.ltb_spec (length (lTab e)) (S (length (lTab e)))); [|lia].
    rewrite Nat.sub_0_r, Nat.eqb_refl.
    eexists. split; [done|]. apply G; [by rewrite (li_map _ I)|done|done].
Qed.
Lemma lState_spec e x y t : linv e -> inrange (lC e) x y t = true ->
  exists id e' en, lState e x y t = Ok (id, e') /\ linv e' /\ ext e e' /\ lTab e' !! id = Some en /\ pose_of en = (x, y, t).
Proof.
  intros I R. unfold lState. destruct (lGet_spec e x y t I) as (r & E & Hr). rewrite E. simpl. destruct r as [id|].
  - destruct (proj1 (Hr id) eq_refl) as (en & En & P). exists id, e, en. split_and!; try done. apply ext_refl.
  - destruct (lCreate_spec e x y t I R) as (e' & E' & I' & X & T).
    { intros id en En P. assert (None = Some id) by (apply Hr; eauto). done. }
    eexists _, e', _. split_and!; [exact E'|done|done| |].
    + rewrite T. apply list_lookup_middle. done.
    + done.
Qed.

(** ** The cost of an action *)
(** The action that a primitive becomes (its place in the row is only used in pointers). *)
Definition act_ok (a : action) (p : prim) : Prop :=
  aStart a = pStart p /\ aDX a = pX p /\ aDY a = pY p /\ aEnd a = pEnd p /\ aCost a = pCost p /\ aInterm a = pInterm p /\ aInter a = pInter p.

Section cost.
Context (e : lat) (I : linv e).
Lemma lrd_in x y : lWithin e x y = true -> exists v, lrd e x y = Ok v /\ lGrid e !! (x, y) = Some v /\ 0 <= v <= 255.
Proof.
  rewrite lWithin_iff. intros [Hx Hy]. destruct (li_grid _ I) as [G1 G2]. destruct (G1 x y Hx Hy) as [v E]. exists v. unfold lrd. rewrite E. apply G2 in E. tauto.
Qed.
Lemma grid_within x y v : lGrid e !! (x, y) = Some v -> lWithin e x y = true /\ 0 <= v <= 255.
Proof. intros E. apply (li_grid _ I) in E. rewrite lWithin_iff. tauto. Qed.
Lemma lValid_spec x y : exists b, lValid e x y = Ok b /\ (b = true <-> free (lGrid e) (cObs (lC e)) (x, y)).
Proof.
  unfold lValid, free. destruct (lWithin e x y) eqn:Hw.
  - destruct (lrd_in x y Hw) as (v & E & G & _). rewrite E. simpl. eexists. split; [done|]. rewrite G. rewrite Z.ltb_lt. split; [eauto|]. intros (? & [= ->] & ?). done.
  - exists false. split; [done|]. split; [done|]. intros (v & G & _). apply grid_within in G as [G _]. congruence.
Qed.
Lemma centres_spec sx sy l m : 0 <= m -> m < cInsc (lC e) \/ l = [] ->
  exists r, centres e sx sy l m = Ok r /\
    match r with
    | None => exists o, o ∈ l /\ forall v, lGrid e !! shift (sx, sy) o = Some v -> cInsc (lC e) <= v
    | Some m' => (forall o, o ∈ l -> exists v, lGrid e !! shift (sx, sy) o = Some v /\ v < cInsc (lC e) /\ v <= m') /\
                 m <= m' /\ (m' = m \/ exists o, o ∈ l /\ lGrid e !! shift (sx, sy) o = Some m')
    end.
Proof.
  revert m. induction l as [|c l IH]; intros m Hm Hi.
  - exists (Some m). simpl. split_and!; [done| |lia|by left]. intros o H. by apply elem_of_nil in H.
  - destruct Hi as [Hi|]; [|done]. simpl. rewrite !(Z.add_comm _ sx), !(Z.add_comm _ sy).
    destruct ((sx + c.1 <? 0) || (sx + c.1 >=? cW (lC e)) || (sy + c.2 <? 0) || (sy + c.2 >=? cH (lC e))) eqn:Q.
    + exists None. split; [done|]. exists c. split; [left|]. intros v G. unfold shift in G. simpl in G.
      apply grid_within in G as [G _]. rewrite lWithin_iff in G. lia.
    + destruct (lrd_in (sx + c.1) (sy + c.2)) as (v & E & G & Hv). { rewrite lWithin_iff. lia. }
      rewrite E. simpl. destruct (Z.max m v >=? cInsc (lC e)) eqn:Q2.
      * exists None. split; [done|]. exists c. split; [left|]. intros v' G'. unfold shift in G'. simpl in G'. rewrite G in G'. injection G' as <-. lia.
      * destruct (IH (Z.max m v)) as (r & Er & Hr); [lia|left; lia|]. exists r. split; [done|]. destruct r as [m'|].
        -- destruct Hr as (H1 & H2 & H3). split_and!.
           ++ intros o [-> |Ho]%elem_of_cons; [|eauto]. exists v. split_and!; [done|lia|lia].
           ++ lia.
           ++ destruct H3 as [H3|(o & Ho & Go)].
              ** destruct (decide (m' = m)); [by left|]. right. exists c. split; [left|]. unfold shift. simpl. rewrite G. f_equal. lia.
              ** right. exists o. split; [by right|done].
        -- destruct Hr as (o & Ho & Hr). exists o. split; [by right|done].
Qed.
Lemma all_valid_spec sx sy l : exists b, all_valid e sx sy l = Ok b /\ (b = true <-> forall o, o ∈ l -> free (lGrid e) (cObs (lC e)) (shift (sx, sy) o)).
Proof.
  induction l as [|c l IH]; simpl.
  - exists true. split; [done|]. split; [|done]. intros _ o H. by apply elem_of_nil in H.
  - rewrite (Z.add_comm _ sx), (Z.add_comm _ sy). destruct (lValid_spec (sx + c.1) (sy + c.2)) as (b & -> & Hb). simpl. destruct b.
    + destruct IH as (b & E & H). exists b. split; [done|]. rewrite H. split.
      * intros Hl o [-> |Ho]%elem_of_cons; [by apply Hb|by apply Hl].
      * intros Hl o Ho. apply Hl. by right.
    + exists false. split; [done|]. split; [done|]. intros Hl. apply Hb. apply (Hl c). left.
Qed.
Lemma lCost_spec sx sy a p : act_ok a p -> 0 <= pCost p <= 8388607 ->
  exists k, lCost e sx sy a = Ok k /\
    ((executable (lGrid e) (cObs (lC e)) (cInsc (lC e)) (cCirc (lC e)) (cPoly (lC e)) (sx, sy) p /\ exists m, greatest (lGrid e) (sx, sy) p m /\ k = pCost p * (m + 1)) \/
     (~ executable (lGrid e) (cObs (lC e)) (cInsc (lC e)) (cCirc (lC e)) (cPoly (lC e)) (sx, sy) p /\ k = INFINITECOST)).
Proof.
  intros (_ & Ax & Ay & _ & Ac & Ai & Aj) Hc. unfold lCost. rewrite Ax, Ay, Ac, Ai, Aj. clear Ax Ay Ac Ai Aj a.
  destruct (lValid_spec sx sy) as (v0 & -> & H0). simpl. destruct v0; simpl.
  2: { eexists. split; [done|]. right. split; [|done]. intros (F & _). apply H0 in F. done. }
  assert (F0 : free (lGrid e) (cObs (lC e)) (sx, sy)) by (by apply H0). clear H0.
  destruct (lValid_spec (sx + pX p) (sy + pY p)) as (v1 & -> & H1). simpl. destruct v1; simpl.
  2: { eexists. split; [done|]. right. split; [|done]. intros (_ & F & _). apply H1 in F. done. }
  assert (F1 : free (lGrid e) (cObs (lC e)) (sx + pX p, sy + pY p)) by (by apply H1). clear H1.
  destruct F0 as (gs & G0 & L0), F1 as (ge & G1 & L1).
  assert (D1 : lrd e (sx + pX p) (sy + pY p) = Ok ge) by (unfold lrd; by rewrite G1).
  assert (D0 : lrd e sx sy = Ok gs) by (unfold lrd; by rewrite G0). rewrite D1. simpl.
  destruct (ge >=? cInsc (lC e)) eqn:Q.
  { eexists. split; [done|]. right. split; [|done]. intros (_ & _ & F & _). pose proof (F _ G1). lia. }
  destruct (centres_spec sx sy (pInterm p) 0) as (m & Em & Hm); [lia|left; apply grid_within in G1; lia|]. rewrite Em. simpl. destruct m as [m|].
  2: { eexists. split; [done|]. right. split; [|done]. intros (_ & _ & _ & F & _). destruct Hm as (o & Ho & Hm). destruct (F o Ho) as (v & Gv & Lv). pose proof (Hm _ Gv). lia. }
  destruct Hm as (M1 & M2 & M3).
  assert (PC : forall b, (if cPoly (lC e) && (m >=? cCirc (lC e)) then all_valid e sx sy (pInter p) else Ok true) = Ok b -> 
     (b = true <-> (cPoly (lC e) = true -> cCirc (lC e) <= 0 \/ (exists o v, o ∈ pInterm p /\ lGrid e !! shift (sx, sy) o = Some v /\ cCirc (lC e) <= v) -> forall o, o ∈ pInter p -> free (lGrid e) (cObs (lC e)) (shift (sx, sy) o)))).
  { intros b Eb. destruct (cPoly (lC e)); simpl in Eb; [|injection Eb as <-; split; done].
    destruct (m >=? cCirc (lC e)) eqn:Qc.
    - destruct (all_valid_spec sx sy (pInter p)) as (b' & Eb' & Hb). rewrite Eb' in Eb. injection Eb as ->. rewrite Hb. split; [by intros ? _ _|].
      intros F. apply F; [done|]. destruct M3 as [-> |(o & Ho & Go)]; [left; lia|]. right. exists o, m. split_and!; [done|done|lia].
    - injection Eb as <-. split; [|done]. intros _ _ [Hc0|(o & v & Ho & Go & Hv)]; [lia|]. destruct (M1 o Ho) as (v' & Gv' & _ & Lv). rewrite Go in Gv'. injection Gv' as <-. lia. }
  assert (OKb : exists b, (if cPoly (lC e) && (m >=? cCirc (lC e)) then all_valid e sx sy (pInter p) else Ok true) = Ok b).
  { destruct (cPoly (lC e) && (m >=? cCirc (lC e))); [|eauto]. destruct (all_valid_spec sx sy (pInter p)) as (b & Eb & _). eauto. }
  destruct OKb as [b Eb]. specialize (PC b Eb). rewrite Eb. simpl. destruct b; simpl.
  2: { eexists. split; [done|]. right. split; [|done]. intros (_ & _ & _ & _ & F). apply PC in F. done. }
  rewrite D0. simpl. eexists. split; [done|]. left.
  assert (B : forall v c, lGrid e !! c = Some v -> 0 <= v <= 255) by (intros v [x y] Gv; by apply grid_within in Gv as [_ ?]).
  assert (Bm : 0 <= m <= 255). { destruct M3 as [-> |(o & _ & Go)]; [lia|]. by apply B in Go. }
  pose proof (B _ _ G0). pose proof (B _ _ G1). split.
  - split_and!.
    + exists gs. done.
    + exists ge. done.
    + intros v Gv. unfold shift in Gv. simpl in Gv. rewrite G1 in Gv. injection Gv as <-. lia.
    + intros o Ho. destruct (M1 o Ho) as (v & ? & ? & _). eauto.
    + by apply PC.
  - exists (Z.max (Z.max m gs) ge). split; [|apply toi32_id; nia].
    split.
    + destruct (Z.max_spec (Z.max m gs) ge) as [[? Emx]|[? Emx]]; rewrite Emx.
      * exists (shift (sx, sy) (pX p, pY p)). split; [by right; left|done].
      * destruct (Z.max_spec m gs) as [[? Emx2]|[? Emx2]]; rewrite Emx2.
        -- exists (sx, sy). split; [by left|done].
        -- destruct M3 as [-> |(o & Ho & Go)]; [|exists (shift (sx, sy) o); split; [right; right; eauto|done]].
           exists (sx, sy). split; [by left|]. rewrite G0. f_equal. lia.
    + intros c v [-> |[-> |(o & Ho & ->)]] Gv.
      * rewrite G0 in Gv. injection Gv as <-. lia.
      * unfold shift in Gv. simpl in Gv. rewrite G1 in Gv. injection Gv as <-. lia.
      * destruct (M1 o Ho) as (v' & Gv' & _ & Lv). rewrite Gv in Gv'. injection Gv' as <-. lia.
Qed.
End cost.
