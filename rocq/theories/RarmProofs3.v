(** Validity of configurations and the tables. *)
From Coq Require Import ZifyBool ZifyNat Sorted.
From Verif Require Import Base BfsSpec BresModel BresProofs RarmModel RarmSpec RarmProofs RarmProofs2.
Local Open Scope Z_scope.

#[local] Arguments ContXY2Cell : simpl never.
#[local] Arguments ra_GETHASHBIN : simpl never.
Lemma line_in_box p1x p1y p2x p2y w h : in_map w h (p1x, p1y) -> in_map w h (p2x, p2y) ->
  exists l, bresenham_line p1x p1y p2x p2y = Some l /\ last l = Some (p2x, p2y) /\ forall x, x ∈ l -> in_map w h x.
Proof.
  intros [Hx1 Hy1] [Hx2 Hy2]. simpl in *.
  destruct (line_spec p1x p1y p2x p2y) as (l&E&Hlen&Hh&Hl&_&Hc). exists l. split_and!; [done|done|].
  intros x Hx. apply elem_of_list_lookup in Hx as [i Hi]. pose proof (lookup_lt_Some _ _ _ Hi) as Hlt.
  destruct (Hc i x Hi) as [A B].
  set (n := Z.max (Z.abs (p2x - p1x)) (Z.abs (p2y - p1y))) in *.
  destruct (decide (n = 0)) as [Hn0|Hn0].
  { assert (i = 0%nat) as -> by lia. rewrite <- head_lookup, Hh in Hi. injection Hi as <-. split; simpl; lia. }
  assert (0 < n) by lia. assert (0 <= Z.of_nat i <= n) as Hi' by lia. clear Hc Hh Hl Hi E.
  assert (forall p q v lo hi, lo <= p < hi -> lo <= q < hi -> 2 * Z.abs (n * (v - p) - Z.of_nat i * (q - p)) <= n -> lo <= v < hi) as G.
  { intros p q v lo hi Hp Hq Hv. remember (Z.of_nat i) as j. set (t := j * (q - p)) in *.
    assert (n * (lo - p) <= t <= n * (hi - 1 - p)) as [Ht1 Ht2].
    { unfold t. destruct (Z.le_gt_cases p q).
      - pose proof (Z.mul_nonneg_nonneg j (q - p) ltac:(lia) ltac:(lia)).
        pose proof (Z.mul_le_mono_nonneg_r j n (q - p) ltac:(lia) ltac:(lia)).
        pose proof (Z.mul_le_mono_nonneg_l (q - p) (hi - 1 - p) n ltac:(lia) ltac:(lia)).
        pose proof (Z.mul_le_mono_nonneg_l (lo - p) 0 n ltac:(lia) ltac:(lia)). lia.
      - pose proof (Z.mul_nonneg_nonneg j (p - q) ltac:(lia) ltac:(lia)).
        pose proof (Z.mul_le_mono_nonneg_r j n (p - q) ltac:(lia) ltac:(lia)).
        pose proof (Z.mul_le_mono_nonneg_l (p - q) (p - lo) n ltac:(lia) ltac:(lia)).
        pose proof (Z.mul_le_mono_nonneg_l 0 (hi - 1 - p) n ltac:(lia) ltac:(lia)).
        replace (j * (q - p)) with (- (j * (p - q))) by ring.
        replace (n * (lo - p)) with (- (n * (p - lo))) by ring. lia. }
    clearbody t. split.
    - destruct (Z.le_gt_cases lo v); [done|exfalso].
      pose proof (Z.mul_le_mono_nonneg_l (v - p) (lo - p - 1) n ltac:(lia) ltac:(lia)).
      replace (n * (lo - p - 1)) with (n * (lo - p) - n) in * by ring. lia.
    - destruct (Z.lt_ge_cases v hi); [done|exfalso].
      pose proof (Z.mul_le_mono_nonneg_l (hi - 1 - p + 1) (v - p) n ltac:(lia) ltac:(lia)).
      replace (n * (hi - 1 - p + 1)) with (n * (hi - 1 - p) + n) in * by ring. lia. }
  split; [by apply (G p1x p2x)|by apply (G p1y p2y)].
Qed.

Section arm.
Context (a : arm) (Hwf : arm_wf a).
Notation w := (a_w a).
Notation h := (a_h a).
Notation inm := (in_map w h).

Lemma w_small : w <= 65535.
Proof. destruct Hwf. nia. Qed.
Lemma cell_in p : inm (ContXY2Cell a p).
Proof.
  pose proof w_small. destruct Hwf. unfold in_map, ContXY2Cell, u16. simpl.
  pose proof (Z.mod_pos_bound (p_x p) 65536 ltac:(lia)). pose proof (Z.mod_pos_bound (p_y p) 65536 ltac:(lia)).
  rewrite aw_square. rewrite (Z.mod_small (w - 1)) by lia.
  set (X := if p_xneg p then 0 else p_x p mod 65536). set (Y := if p_yneg p then 0 else p_y p mod 65536).
  assert (0 <= X) by (unfold X; destruct (p_xneg p); lia). assert (0 <= Y) by (unfold Y; destruct (p_yneg p); lia).
  destruct (Z.leb_spec w X), (Z.leb_spec w Y); lia.
Qed.
Lemma outside_spec p : pt_outside p = false <-> inside_env p.
Proof. unfold pt_outside, inside_env. destruct (p_xneg p), (p_xbig p), (p_yneg p), (p_ybig p); naive_solver. Qed.

Lemma line_free_spec l : (forall x, x ∈ l -> inm x) ->
  exists b, ra_line_free (a_grid a) l = Ok b /\ (b = true <-> forall x, x ∈ l -> free w h (a_grid a) x).
Proof.
  induction l as [|x l IH]; intros Hl; simpl.
  - exists true. split; [done|]. split; [|done]. intros _ x Hx. by apply elem_of_nil in Hx.
  - destruct (aw_map _ Hwf x) as [o Ho]; [apply Hl; set_solver|]. rewrite Ho. destruct (Z.eqb_spec o 1) as [-> |Hne].
    + exists false. split; [done|]. split; [done|]. intros Hf. destruct (Hf x) as [_ (o&Ho'&?)]; [set_solver|]. congruence.
    + destruct IH as (b&Eb&Hb); [set_solver|]. exists b. split; [done|]. rewrite Hb. split.
      * intros Hf y [-> |Hy]%elem_of_cons; [|auto]. split; [apply Hl; set_solver|eauto].
      * intros Hf y Hy. apply Hf. set_solver.
Qed.

Lemma segment_spec c k : exists b, IsValidLineSegment a (a_joint a c k) (a_joint a c (S k)) = Ok b /\ (b = true <-> link_ok a c k).
Proof.
  unfold IsValidLineSegment, link_ok.
  destruct (pt_outside (a_joint a c k)) eqn:E1; cbn [orb].
  { exists false. split; [done|]. split; [done|]. intros (Hin&_). apply outside_spec in Hin. congruence. }
  destruct (pt_outside (a_joint a c (S k))) eqn:E2; cbn [orb].
  { exists false. split; [done|]. split; [done|]. intros (_&Hin&_). apply outside_spec in Hin. congruence. }
  apply outside_spec in E1, E2.
  destruct (line_in_box (cell_at a c k).1 (cell_at a c k).2 (cell_at a c (S k)).1 (cell_at a c (S k)).2 w h) as (l&El&_&Hl).
  - apply (cell_in (a_joint a c k)).
  - apply (cell_in (a_joint a c (S k))).
  - cbv zeta. fold (cell_at a c k). fold (cell_at a c (S k)). rewrite El.
    destruct (line_free_spec l Hl) as (b&Eb&Hb). exists b. split; [done|]. rewrite Hb. split.
    + intros Hf. split_and!; [done|done|]. eauto.
    + intros (_&_&l'&El'&Hf). by injection El' as <-.
Qed.

Lemma links_spec c ks : exists b, ra_links a c ks = Ok b /\ (b = true <-> forall k, k ∈ ks -> link_ok a c k).
Proof.
  induction ks as [|k ks IH]; simpl.
  - exists true. split; [done|]. split; [|done]. intros _ x Hx. by apply elem_of_nil in Hx.
  - destruct (segment_spec c k) as (b&Eb&Hb). rewrite Eb. simpl. destruct b.
    + destruct IH as (b'&Eb'&Hb'). exists b'. split; [done|]. rewrite Hb'. split.
      * intros Hf j [-> |Hj]%elem_of_cons; [by apply Hb|auto].
      * intros Hf j Hj. apply Hf. set_solver.
    + exists false. split; [done|]. split; [done|]. intros Hf. apply Hb. apply Hf. set_solver.
Qed.

Lemma valid_spec c : exists b, IsValidCoord a c = Ok b /\ (b = true <-> config_ok a c).
Proof.
  destruct (links_spec c (seq 0 NUMOFLINKS)) as (b&Eb&Hb). exists b. split; [done|]. rewrite Hb. unfold config_ok. split.
  - intros Hf k Hk. apply Hf. apply elem_of_seq. unfold NUMOFLINKS. lia.
  - intros Hf k Hk. apply Hf. apply elem_of_seq in Hk. unfold NUMOFLINKS in Hk. lia.
Qed.
Lemma valid_iff c : IsValidCoord a c = Ok true <-> config_ok a c.
Proof. destruct (valid_spec c) as (b&->&Hb). rewrite <- Hb. split; [by intros [= ->]|by intros ->]. Qed.
Lemma tip_in c : inm (tip a c).
Proof. apply cell_in. Qed.
Lemma tip_free c : config_ok a c -> free w h (a_grid a) (tip a c).
Proof.
  intros Hok. destruct (Hok 5%nat ltac:(lia)) as (_&_&l&El&Hl).
  destruct (line_spec (cell_at a c 5).1 (cell_at a c 5).2 (cell_at a c 6).1 (cell_at a c 6).2) as (l'&E'&_&_&Hlast&_).
  rewrite El in E'. injection E' as <-. apply Hl. unfold tip. destruct (cell_at a c 6). 
  rewrite last_lookup in Hlast. by apply elem_of_list_lookup_2 in Hlast.
Qed.
Lemma cost_ok c1 c2 : config_ok a c1 -> config_ok a c2 -> ra_cost a c1 c2 = Ok 1.
Proof. intros H1%valid_iff H2%valid_iff. unfold ra_cost. rewrite H1. simpl. by rewrite H2. Qed.

(** * The tables *)
Definition zeros : list Z := replicate 6 0.
Definition first_with (tab : list hent) (p : nat) (c : list Z) : Prop :=
  (exists e, tab !! p = Some e /\ e_coord e = c) /\ forall q e, (q < p)%nat -> tab !! q = Some e -> e_coord e <> c.
Definition bins_ok (tab : list hent) (bins : gmap Z (list nat)) : Prop := forall b,
  default [] (bins !! b) = filter (fun p => (fun e => ra_GETHASHBIN (e_coord e)) <$> (tab !! p) = Some b) (seq 0 (length tab)).

Record tinv (s : robarm) : Prop := {
  t_bins : bins_ok (r_tab s) (r_bins s);
  t_map : r_map s = length (r_tab s);
  t_id : forall p e, r_tab s !! p = Some e -> e_id e = Z.of_nat p /\ config a (e_coord e);
  t_start : r_start s = 0%nat /\ exists e, r_tab s !! 0%nat = Some e /\ e_coord e = a_start a;
  t_goal : r_goal s = 1%nat /\ r_tab s !! 1%nat = Some (mkHent 1 zeros (goal_cell a)) /\ inm (goal_cell a);
  t_valid : forall p e, r_tab s !! p = Some e -> p <> 1%nat -> config_ok a (e_coord e) /\ e_eff e = tip a (e_coord e);
  t_uniq : forall p q e e', r_tab s !! p = Some e -> r_tab s !! q = Some e' -> (p < q)%nat ->
     e_coord e = e_coord e' -> p = 0%nat /\ q = 1%nat;
  t_heur : forall src c, inm src -> inm c -> exists row v,
    r_heur s !! XYTO2DIND w src.1 src.2 = Some row /\ row !! XYTO2DIND w c.1 c.2 = Some v /\ shortest w h (a_grid a) src c v }.

Lemma bins_create tab bins c id eff : bins_ok tab bins ->
  bins_ok (tab ++ [mkHent id c eff])
    (<[ra_GETHASHBIN c := default [] (bins !! ra_GETHASHBIN c) ++ [length tab]]> bins).
Proof.
  intros Hb b. rewrite app_length. simpl. rewrite Nat.add_1_r, seq_S, filter_app. simpl.
  assert (filter (fun p => (fun e => ra_GETHASHBIN (e_coord e)) <$> ((tab ++ [mkHent id c eff]) !! p) = Some b) (seq 0 (length tab))
    = filter (fun p => (fun e => ra_GETHASHBIN (e_coord e)) <$> (tab !! p) = Some b) (seq 0 (length tab))) as ->.
  { assert (forall l : list nat, (forall p, p ∈ l -> (p < length tab)%nat) ->
      filter (fun p => (fun e => ra_GETHASHBIN (e_coord e)) <$> ((tab ++ [mkHent id c eff]) !! p) = Some b) l
      = filter (fun p => (fun e => ra_GETHASHBIN (e_coord e)) <$> (tab !! p) = Some b) l) as G.
    { induction l as [|p l IH]; intros Hl; [done|]. rewrite !filter_cons, lookup_app_l by (apply Hl; set_solver).
      rewrite IH by set_solver. done. }
    apply G. intros p Hp%elem_of_seq. lia. }
  rewrite <- Hb. rewrite filter_cons, filter_nil. rewrite lookup_app_r by lia. rewrite Nat.sub_diag. simpl.
  destruct (decide (Some (ra_GETHASHBIN c) = Some b)) as [[= <-]|Hne].
  - by rewrite lookup_insert.
  - rewrite lookup_insert_ne by congruence. by rewrite app_nil_r.
Qed.

Lemma find_spec tab c l : (forall p, p ∈ l -> (p < length tab)%nat) ->
  exists o, ra_find tab c l = Ok o /\
  match o with
  | None => forall p e, p ∈ l -> tab !! p = Some e -> e_coord e <> c
  | Some p => exists l1 l2 e, l = l1 ++ p :: l2 /\ tab !! p = Some e /\ e_coord e = c /\ forall q e, q ∈ l1 -> tab !! q = Some e -> e_coord e <> c
  end.
Proof.
  induction l as [|p l IH]; intros Hl; simpl.
  - exists None. split; [done|]. intros p e Hp. by apply elem_of_nil in Hp.
  - destruct (lookup_lt_is_Some_2 tab p) as [e Ee]; [apply Hl; set_solver|]. rewrite Ee.
    destruct (decide (e_coord e = c)) as [Ec|Ec].
    + exists (Some p). split; [done|]. exists [], l, e. split_and!; try done. intros q e' Hq. by apply elem_of_nil in Hq.
    + destruct IH as (o&Eo&Ho); [set_solver|]. exists o. split; [done|]. destruct o as [q|].
      * destruct Ho as (l1&l2&e'&->&?&?&Hq). exists (p :: l1), l2, e'. split_and!; try done.
        intros r e'' [-> |Hr]%elem_of_cons He''; [congruence|eauto].
      * intros r e'' [-> |Hr]%elem_of_cons He''; [congruence|eauto].
Qed.

Lemma get_spec s c : bins_ok (r_tab s) (r_bins s) -> exists o, ra_GetHashEntry s c false = Ok o /\
  match o with
  | None => forall p e, r_tab s !! p = Some e -> e_coord e <> c
  | Some p => first_with (r_tab s) p c
  end.
Proof.
  intros Hb. unfold ra_GetHashEntry. rewrite (Hb (ra_GETHASHBIN c)).
  set (P := fun p => (fun e => ra_GETHASHBIN (e_coord e)) <$> (r_tab s !! p) = Some (ra_GETHASHBIN c)).
  destruct (find_spec (r_tab s) c (filter P (seq 0 (length (r_tab s))))) as (o&Eo&Ho).
  { intros p [_ Hp%elem_of_seq]%elem_of_list_filter. lia. }
  exists o. split; [done|].
  assert (Hin : forall p e, r_tab s !! p = Some e -> e_coord e = c -> p ∈ filter P (seq 0 (length (r_tab s)))).
  { intros p e He Hc. apply elem_of_list_filter. split; [unfold P; rewrite He; simpl; by rewrite Hc|].
    apply elem_of_seq. apply lookup_lt_Some in He. lia. }
  destruct o as [p|].
  - destruct Ho as (l1&l2&e&El&He&Hc&Hq). split; [eauto|]. intros q e' Hlt He' Hc'.
    pose proof (Hin q e' He' Hc') as Hqin. rewrite El in Hqin. apply elem_of_app in Hqin as [Hq1|Hq2].
    { by eapply Hq. }
    apply elem_of_cons in Hq2 as [-> |Hq2]; [lia|].
    assert (StronglySorted lt (filter P (seq 0 (length (r_tab s))))) as Hs.
    { assert (forall n k, StronglySorted lt (filter P (seq k n))) as G; [|apply G].
      induction n as [|n IH]; intros k; [constructor|]. rewrite <- cons_seq, filter_cons.
      destruct (decide (P k)); [|apply IH]. constructor; [apply IH|]. apply Forall_forall.
      intros x [_ Hx%elem_of_seq]%elem_of_list_filter. lia. }
    rewrite El in Hs. clear - Hs Hq2 Hlt. induction l1 as [|z l1 IH]; [|apply StronglySorted_inv in Hs as [Hs _]; auto].
    simpl in Hs. apply StronglySorted_inv in Hs as [_ Hs].
    rewrite Forall_forall in Hs. specialize (Hs q Hq2). lia.
  - intros p e He Hc. eapply Ho; eauto.
Qed.

Lemma create_inv s c : tinv s -> config a c -> config_ok a c ->
  (forall p e, r_tab s !! p = Some e -> e_coord e <> c) ->
  exists s', ra_Create s c (tip a c) = Ok (length (r_tab s), s') /\ tinv s' /\
    r_tab s' = r_tab s ++ [mkHent (Z.of_nat (length (r_tab s))) c (tip a c)] /\ r_heur s' = r_heur s.
Proof.
  intros [T1 T2 T3 T4 T5 T6 T7 T8] Hc Hok Hnew. unfold ra_Create. rewrite T2.
  rewrite (proj2 (Nat.ltb_lt _ _)) by lia. rewrite Nat.eqb_refl. eexists. split; [done|]. split; [|done].
  constructor; simpl.
  - by apply bins_create.
  - rewrite app_length. simpl. lia.
  - intros p e [He|[? He]]%lookup_app_Some; [eauto|]. apply list_lookup_singleton_Some in He as [? <-]. simpl. split; [lia|done].
  - destruct T4 as [? (e&?&?)]. split; [done|]. exists e. split; [by apply lookup_app_l_Some|done].
  - destruct T5 as [? [? ?]]. split; [done|]. split; [by apply lookup_app_l_Some|done].
  - intros p e [He|[? He]]%lookup_app_Some Hp; [eauto|]. apply list_lookup_singleton_Some in He as [? <-]. done.
  - intros p q e e' [He|[? He]]%lookup_app_Some [He'|[? He']]%lookup_app_Some Hlt Heq.
    + eauto.
    + apply list_lookup_singleton_Some in He' as [? <-]. simpl in Heq. exfalso. by eapply Hnew.
    + apply lookup_lt_Some in He'. lia.
    + apply list_lookup_singleton_Some in He as [? <-]. apply list_lookup_singleton_Some in He' as [? <-]. lia.
  - done.
Qed.

(** One look-up-or-create, as in GetSuccs and the random functions. *)
Definition goalb (c : list Z) : bool := ((tip a c).1 =? a_gx a) && ((tip a c).2 =? a_gy a).
Lemma goalb_spec c : goalb c = true <-> tip a c = goal_cell a.
Proof. unfold goalb, goal_cell. destruct (tip a c) as [x y]. simpl. rewrite andb_true_iff, !Z.eqb_eq. split; [intros [-> ->]; done|by intros [= -> ->]]. Qed.

Definition ext (s s' : robarm) : Prop := r_tab s `prefix_of` r_tab s' /\ r_heur s' = r_heur s.
Lemma ext_refl s : ext s s.
Proof. done. Qed.
Lemma ext_trans s1 s2 s3 : ext s1 s2 -> ext s2 s3 -> ext s1 s3.
Proof. intros [? ?] [? ?]. split; [by etrans|congruence]. Qed.
Lemma ext_lookup s s' p e : ext s s' -> r_tab s !! p = Some e -> r_tab s' !! p = Some e.
Proof. intros [Hp _] He. by eapply prefix_lookup. Qed.

(** The state reported for configuration c. *)
Definition names (s : robarm) (id : Z) (c : list Z) : Prop :=
  if goalb c then is_goal s id else stands_for s id c /\ (is_goal s id -> c = zeros /\ a_start a <> zeros).

Lemma names_ext s s' id c : tinv s -> tinv s' -> ext s s' -> names s id c -> names s' id c.
Proof.
  intros T T' E. unfold names, is_goal. rewrite (proj1 (t_goal _ T)), (proj1 (t_goal _ T')). destruct (goalb c); [done|].
  intros [(H0&e&He&Hid&Hc) Hz]. split; [|done]. split; [done|]. exists e. split; [|done]. by eapply ext_lookup.
Qed.

Lemma lookup_step s c : tinv s -> config a c -> config_ok a c ->
  exists p s' e, (do o <- ra_lift s (ra_GetHashEntry s c (goalb c));
     match o with Some p => Ok (p, s) | None => ra_Create s c (tip a c) end) = Ok (p, s') /\
   tinv s' /\ ext s s' /\ r_tab s' !! p = Some e /\ e_id e = Z.of_nat p /\ names s' (e_id e) c.
Proof.
  intros T Hc Hok. pose proof T as [T1 T2 T3 T4 T5 T6 T7 T8]. unfold names, is_goal. destruct (goalb c) eqn:Eg.
  - simpl. destruct T5 as (Eg1&Eg2&_). rewrite Eg1. do 3 eexists. split; [done|]. split; [done|]. split; [done|]. split; [done|]. split; [done|].
    simpl. by rewrite Eg1.
  - destruct (get_spec s c T1) as (o&Eo&Ho). rewrite Eo. simpl. destruct o as [p|].
    + destruct Ho as [(e&He&Hec) Hfirst]. exists p, s, e. destruct (T3 p e He) as [Hid _]. split_and!; try done.
      * unfold stands_for. split; [lia|]. exists e. rewrite Hid, Nat2Z.id. done.
      * intros Hg. destruct T5 as (Eg1&Eg2&_). assert (p = 1%nat) as -> by lia. rewrite Eg2 in He. injection He as <-.
        split; [done|]. intros Hz. destruct T4 as (_&e0&He0&Hc0). apply (Hfirst 0%nat e0); [lia|done|]. simpl in Hec. congruence.
    + destruct (create_inv s c T Hc Hok Ho) as (s'&E&T'&Etab&Eh). exists (length (r_tab s)), s', (mkHent (Z.of_nat (length (r_tab s))) c (tip a c)).
      assert (r_tab s' !! length (r_tab s) = Some (mkHent (Z.of_nat (length (r_tab s))) c (tip a c))) as Hnew.
      { rewrite Etab, lookup_app_r by lia. by rewrite Nat.sub_diag. }
      split_and!; try done.
      * split; [|done]. rewrite Etab. by exists [mkHent (Z.of_nat (length (r_tab s))) c (tip a c)].
      * simpl. unfold stands_for. split; [lia|]. rewrite Nat2Z.id. eauto.
      * intros Hg. simpl in Hg. rewrite (proj1 (t_goal _ T')) in Hg. destruct T5 as (Eg1&Eg2&_). apply lookup_lt_Some in Eg2. lia.
Qed.
End arm.
