(** Proofs about EnvironmentNAV2DUU: histories of calls and GetPreds. *)
From Verif Require Import Base EvalModel UuModel UuSpec UuProofs.
From Coq Require Import Lqa.
Local Open Scope Z_scope.

(** The object represents the world W. *)
Record winv (W : world) (s : uuenv) : Prop := {
  wi_w : uu_w s = wd_w W; wi_h : uu_h s = wd_h W; wi_thr : uu_thr s = wd_thr W;
  wi_grid : forall x y, uu_grid s !! (x, y) = if decide (InMap (wd_w W) (wd_h W) x y) then Some (wd_cost W x y) else None;
  wi_unc : forall x y, InMap (wd_w W) (wd_h W) x y -> uu_unc s !! (x, y) = Some (wd_prob W x y);
  wi_hid : forall x y, InMap (wd_w W) (wd_h W) x y -> y < wd_w W -> uu_hid s !! (x, y) = Some (wd_hid W x y) }.

Definition with_cost (W : world) (f : Z -> Z -> Z) : world :=
  mkWorld (wd_w W) (wd_h W) (wd_thr W) f (wd_prob W) (wd_hid W).

Lemma within_spec s x y : uu_within s x y = true <-> InMap (uu_w s) (uu_h s) x y.
Proof.
  unfold uu_within, InMap. rewrite !andb_true_iff, !Z.leb_le, !Z.ltb_lt. lia.
Qed.

Lemma run_ok W s os :
  winv W s -> UpdatesInMap (wd_w W) (wd_h W) os ->
  exists s', uu_run s os = Ok s' /\ winv (with_cost W (CostAfter (wd_cost W) os)) s' /\
    uu_ndirs s' = uu_ndirs s /\ uu_hid s' = uu_hid s /\ uu_sizeS s' = uu_sizeS s /\ uu_sizeH s' = uu_sizeH s /\
    (forall a b, uu_startid s = uu_toid a b ->
      uu_startid s' = uu_toid (LastStart (wd_w W) (wd_h W) os (a, b)).1 (LastStart (wd_w W) (wd_h W) os (a, b)).2) /\
    (forall a b, uu_goalid s = uu_toid a b ->
      uu_goalid s' = uu_toid (LastGoal (wd_w W) (wd_h W) os (a, b)).1 (LastGoal (wd_w W) (wd_h W) os (a, b)).2).
Proof.
  revert W s. induction os as [|o os IH]; intros W s HW HU.
  - exists s. simpl. split; [done|]. split; [|done]. destruct HW. constructor; done.
  - assert (HU' : UpdatesInMap (wd_w W) (wd_h W) os) by (intros x y c H; apply (HU x y c); right; done).
    destruct o as [x y|x y|x y c].
    + cbn [uu_run uu_step obind]. 
      assert (HW' : winv W (uu_SetStart s x y).1).
      { unfold uu_SetStart. destruct (uu_within s x y); simpl; [|done]. destruct HW. constructor; done. }
      destruct (IH W _ HW' HU') as (s' & Hr & Hi & Hn & Hhd & HS & HH & Hst & Hgo).
      exists s'. split; [done|]. split; [done|].
      assert (Hsame : uu_ndirs (uu_SetStart s x y).1 = uu_ndirs s /\ uu_hid (uu_SetStart s x y).1 = uu_hid s /\ uu_sizeS (uu_SetStart s x y).1 = uu_sizeS s /\
                      uu_sizeH (uu_SetStart s x y).1 = uu_sizeH s /\ uu_goalid (uu_SetStart s x y).1 = uu_goalid s).
      { unfold uu_SetStart. destruct (uu_within s x y); done. }
      destruct Hsame as (H1 & H5 & H2 & H3 & H4). rewrite H1 in Hn. rewrite H5 in Hhd. rewrite H2 in HS. rewrite H3 in HH. rewrite H4 in Hgo.
      split_and!; try done. intros a b Hab. cbn [LastStart].
      assert (E : uu_within s x y = (0 <=? x) && (x <? wd_w W) && (0 <=? y) && (y <? wd_h W)).
      { unfold uu_within. rewrite (wi_w _ _ HW), (wi_h _ _ HW). done. }
      rewrite <-E. destruct (uu_within s x y) eqn:Ew.
      * apply Hst. unfold uu_SetStart. rewrite Ew. done.
      * apply Hst. unfold uu_SetStart. rewrite Ew. done.
    + cbn [uu_run uu_step obind].
      assert (HW' : winv W (uu_SetGoal s x y).1).
      { unfold uu_SetGoal. destruct (uu_within s x y); simpl; [|done]. destruct HW. constructor; done. }
      destruct (IH W _ HW' HU') as (s' & Hr & Hi & Hn & Hhd & HS & HH & Hst & Hgo).
      exists s'. split; [done|]. split; [done|].
      assert (Hsame : uu_ndirs (uu_SetGoal s x y).1 = uu_ndirs s /\ uu_hid (uu_SetGoal s x y).1 = uu_hid s /\ uu_sizeS (uu_SetGoal s x y).1 = uu_sizeS s /\
                      uu_sizeH (uu_SetGoal s x y).1 = uu_sizeH s /\ uu_startid (uu_SetGoal s x y).1 = uu_startid s).
      { unfold uu_SetGoal. destruct (uu_within s x y); done. }
      destruct Hsame as (H1 & H5 & H2 & H3 & H4). rewrite H1 in Hn. rewrite H5 in Hhd. rewrite H2 in HS. rewrite H3 in HH. rewrite H4 in Hst.
      split_and!; try done. intros a b Hab. cbn [LastGoal].
      assert (E : uu_within s x y = (0 <=? x) && (x <? wd_w W) && (0 <=? y) && (y <? wd_h W)).
      { unfold uu_within. rewrite (wi_w _ _ HW), (wi_h _ _ HW). done. }
      rewrite <-E. destruct (uu_within s x y) eqn:Ew.
      * apply Hgo. unfold uu_SetGoal. rewrite Ew. done.
      * apply Hgo. unfold uu_SetGoal. rewrite Ew. done.
    + assert (HI : InMap (wd_w W) (wd_h W) x y) by (apply (HU x y c); left; done).
      cbn [uu_run uu_step]. unfold uu_UpdateCost.
      assert (Hg : uu_grid s !! (x, y) = Some (wd_cost W x y)) by (rewrite (wi_grid _ _ HW), decide_True; done).
      rewrite Hg. cbn [obind fst].
      match goal with |- context [uu_run ?s1 os] => set (s1' := s1) end.
      set (f := fun a b => if (a =? x) && (b =? y) then c else wd_cost W a b).
      assert (HW' : winv (with_cost W f) s1').
      { destruct HW as [Hw Hh Ht Hgr Hun Hhi]. constructor; simpl; try done.
        intros a b. subst s1'. cbn [uu_grid]. unfold f. destruct (decide ((a, b) = (x, y))) as [Heq|Hne].
        - injection Heq as -> ->. rewrite lookup_insert, decide_True by done. rewrite !Z.eqb_refl. done.
        - rewrite lookup_insert_ne by congruence. rewrite Hgr. destruct (decide _); [|done].
          destruct ((a =? x) && (b =? y)) eqn:E; [|done].
          apply andb_true_iff in E as [E1 E2]. apply Z.eqb_eq in E1, E2. subst. done. }
      destruct (IH (with_cost W f) s1' HW' HU') as (s' & Hr & Hi & Hn & Hhd & HS & HH & Hst & Hgo).
      exists s'. split; [done|]. split; [exact Hi|].
      split; [exact Hn|]. split; [exact Hhd|]. split; [exact HS|]. split; [exact HH|]. split.
      * intros a b Hab. cbn [LastStart]. apply Hst. exact Hab.
      * intros a b Hab. cbn [LastGoal]. apply Hgo. exact Hab.
Qed.

(** ** State IDs *)
Lemma toid_inv x y : 0 <= x -> 0 <= y < 1024 -> uu_tox (uu_toid x y) = x /\ uu_toy (uu_toid x y) = y.
Proof.
  intros Hx Hy. unfold uu_tox, uu_toy, uu_toid, UU_MAXWH.
  rewrite Z.quot_div_nonneg, Z.rem_mod_nonneg by lia. split.
  - rewrite Z.div_add_l by lia. rewrite Z.div_small by lia. lia.
  - rewrite Z.add_comm, Z.mod_add by lia. apply Z.mod_small. lia.
Qed.
Lemma toid_of_id id : 0 <= uu_tox id -> 0 <= uu_toy id -> uu_toid (uu_tox id) (uu_toy id) = id /\ uu_toy id < 1024.
Proof.
  unfold uu_tox, uu_toy, uu_toid, UU_MAXWH. intros H1 H2.
  pose proof (Z.quot_rem' id 1024) as H3. split; [lia|].
  destruct (decide (0 <= id)).
  - rewrite Z.rem_mod_nonneg by lia. apply Z.mod_pos_bound. lia.
  - pose proof (Z.rem_bound_neg_pos id 1024). lia.
Qed.

(** ** Beliefs *)
Lemma inject_Z_eps q : (inject_Z q < 1 # 100000)%Q <-> q <= 0.
Proof.
  unfold Qlt, inject_Z. simpl. split; lia.
Qed.
Lemma inject_Z_blocked q : (99999 # 100000 < inject_Z q)%Q <-> 1 <= q.
Proof. unfold Qlt, inject_Z. simpl. split; lia. Qed.

Lemma hvar_lt_spec v : hvar_lt_eps v = true <-> v.2 <= 0.
Proof. unfold hvar_lt_eps, UU_EPS. rewrite qltb_spec. apply inject_Z_eps. Qed.

Lemma scan_free upd hid p fr : (uu_scan upd hid p fr).2 = fr || existsb hvar_lt_eps upd.
Proof.
  revert p fr. induction upd as [|v upd IH]; intros p fr; simpl; [by rewrite orb_false_r|].
  rewrite IH. destruct (hvar_lt_eps v), fr; simpl; done.
Qed.
Lemma scan_prob upd hid p fr : Believed upd hid p (uu_scan upd hid p fr).1.
Proof.
  revert p fr. induction upd as [|[v q] upd IH]; intros p fr; simpl.
  - right. split; [|done]. intros q []. 
  - destruct (v =? hid) eqn:E.
    + apply Z.eqb_eq in E. subst v.
      destruct (IH (inject_Z q) (if hvar_lt_eps (hid, q) then true else fr)) as [(l1 & q' & l2 & -> & Hn & Hp)|[Hn Hp]].
      * left. exists ((hid, q) :: l1), q', l2. split; [done|]. split; done.
      * left. exists [], q, upd. split; [done|]. split; done.
    + apply Z.eqb_neq in E.
      destruct (IH p (if hvar_lt_eps (v, q) then true else fr)) as [(l1 & q' & l2 & -> & Hn & Hp)|[Hn Hp]].
      * left. exists ((v, q) :: l1), q', l2. split; [done|]. split; done.
      * right. split; [|done]. intros q' [H|H]; [congruence|]. by apply (Hn q').
Qed.
Lemma Believed_det upd hid p0 p p' : Believed upd hid p0 p -> Believed upd hid p0 p' -> p = p'.
Proof.
  intros [(l1 & q & l2 & He & Hn & ->)|[Hn ->]] [(l1' & q' & l2' & He' & Hn' & ->)|[Hn' ->]].
  - f_equal. clear p0. rewrite He in He'. clear He. rename He' into He. revert l1' He.
    induction l1 as [|a l1 IH]; intros [|a' l1'] H; simpl in H.
    + injection H as -> _. done.
    + exfalso. injection H as <- H. apply (Hn q'). rewrite H. apply in_or_app. right. left. done.
    + exfalso. injection H as -> H. apply (Hn' q). rewrite <-H. apply in_or_app. right. left. done.
    + injection H as _ H. eauto.
  - exfalso. apply (Hn' q). rewrite He. apply in_or_app. right. left. done.
  - exfalso. apply (Hn q'). rewrite He'. apply in_or_app. right. left. done.
  - done.
Qed.
Lemma knownfree_spec upd id : BeliefsOk upd -> uu_knownfree upd id = true <-> In (id, 0) upd.
Proof.
  induction upd as [|[v q] upd IH]; intros HB; [simpl; naive_solver|].
  assert (HB' : BeliefsOk upd) by (intros v' q' H; apply (HB v' q'); right; done).
  specialize (IH HB'). cbn [uu_knownfree fst].
  destruct (v =? id) eqn:E.
  - apply Z.eqb_eq in E. subst v. destruct (hvar_lt_eps (id, q)) eqn:Eh.
    + apply hvar_lt_spec in Eh. simpl in Eh. pose proof (HB id q (or_introl eq_refl)).
      split; [|done]. intros _. left. f_equal. lia.
    + rewrite IH. split; [right; done|]. intros [H|H]; [|done]. injection H as ->.
      exfalso. assert (hvar_lt_eps (id, 0) = true) by (apply hvar_lt_spec; simpl; lia). congruence.
  - apply Z.eqb_neq in E. rewrite IH. split; [right; done|]. intros [H|H]; [congruence|done].
Qed.
Lemma knownfree_any upd id : uu_knownfree upd id = true -> existsb hvar_lt_eps upd = true.
Proof.
  induction upd as [|v upd IH]; [done|]. cbn [uu_knownfree existsb].
  destruct (v.1 =? id), (hvar_lt_eps v); simpl; auto.
Qed.

(** ** One move *)
Section Neighbour.
Context (W : world) (s : uuenv) (HW : winv W s) (Hsq : wd_h W <= wd_w W) (upd : list hvar) (HB : BeliefsOk upd).

Lemma grid_in x y : InMap (wd_w W) (wd_h W) x y -> uu_grid s !! (x, y) = Some (wd_cost W x y).
Proof. intros H. rewrite (wi_grid _ _ HW), decide_True; done. Qed.

Lemma within_W x y : uu_within s x y = true <-> InMap (wd_w W) (wd_h W) x y.
Proof. rewrite within_spec, (wi_w _ _ HW), (wi_h _ _ HW). done. Qed.

Lemma intersect_spec x y :
  InMap (wd_w W) (wd_h W) x y ->
  exists b, uu_intersect s upd (existsb hvar_lt_eps upd) x y = Ok b /\ (b = true <-> Passable W upd x y).
Proof.
  intros HI. unfold uu_intersect. rewrite (wi_unc _ _ HW) by done. unfold Passable, SurelyFree, qgeb, UU_EPS.
  destruct (Qle_bool (1 # 100000) (wd_prob W x y)) eqn:E.
  - apply Qle_bool_iff in E.
    assert (Hnf : ~ (wd_prob W x y < 1 # 100000)%Q) by lra.
    rewrite (wi_hid _ _ HW) by (try done; destruct HI; lia).
    destruct (existsb hvar_lt_eps upd) eqn:Ef; cbn [negb].
    + exists (uu_knownfree upd (wd_hid W x y)). split; [done|]. rewrite knownfree_spec by done. naive_solver.
    + exists false. split; [done|]. split; [done|]. intros [H|H]; [done|].
      apply (knownfree_spec _ _ HB) in H. apply knownfree_any in H. congruence.
  - exists true. split; [done|]. split; [|done]. intros _. left.
    apply Qnot_le_lt. intros H. apply Qle_bool_iff in H. congruence.
Qed.

Lemma uu_max_spec a b : uu_max a b = Z.max a b.
Proof. unfold uu_max. rewrite Z.gtb_ltb. destruct (b <? a) eqn:E; [apply Z.ltb_lt in E|apply Z.ltb_ge in E]; lia. Qed.

Lemma neighbour_spec x y k dx dy p :
  InMap (wd_w W) (wd_h W) x y -> wd_cost W x y < wd_thr W -> Dir k dx dy ->
  (exists c, Move W upd x y dx dy c /\
     uu_neighbour s upd (existsb hvar_lt_eps upd) false p (uu_toid x y) x y (wd_cost W x y) k =
     Ok (Some (mkUA k (uu_toid (x + dx) (y + dy)) [(uu_toid x y, c, (1 - p)%Q); (uu_toid (x + dx) (y + dy), 2 * c, p)]))) \/
  ((forall c, ~ Move W upd x y dx dy c) /\
     uu_neighbour s upd (existsb hvar_lt_eps upd) false p (uu_toid x y) x y (wd_cost W x y) k = Ok None).
Proof.
  intros HI Hc HD.
  assert (Hdir : uu_read uu_dirs k = Some (dx, dy) /\ ~ (dx = 0 /\ dy = 0)).
  { unfold Dir in HD. repeat (apply elem_of_cons in HD as [HD|HD]; [injection HD as -> -> ->; split; [reflexivity|lia]|]).
    by apply elem_of_nil in HD. }
  destruct Hdir as [Hdir Hnz]. unfold uu_neighbour. rewrite Hdir.
  destruct (uu_within s (x + dx) (y + dy)) eqn:Ew; cbn [negb].
  2:{ right. split; [|done]. intros c (H & _). apply within_W in H. congruence. }
  apply within_W in Ew. rewrite grid_in by done.
  destruct (wd_cost W (x + dx) (y + dy) >=? uu_thr s) eqn:Eg.
  { right. split; [|done]. intros c (_ & _ & H & _). rewrite (wi_thr _ _ HW) in Eg. apply Z.geb_le in Eg. lia. }
  rewrite (wi_thr _ _ HW) in *. rewrite Z.geb_leb in Eg. apply Z.leb_gt in Eg. unfold uu_costmult.
  replace (x + dx =? x) with (dx =? 0).
  2:{ destruct (dx =? 0) eqn:E1; symmetry; [apply Z.eqb_eq in E1; apply Z.eqb_eq; lia|apply Z.eqb_neq in E1; apply Z.eqb_neq; lia]. }
  replace (y + dy =? y) with (dy =? 0).
  2:{ destruct (dy =? 0) eqn:E1; symmetry; [apply Z.eqb_eq in E1; apply Z.eqb_eq; lia|apply Z.eqb_neq in E1; apply Z.eqb_neq; lia]. }
  unfold uu_dist. destruct (negb (dx =? 0) && negb (dy =? 0)) eqn:Ed.
  - apply andb_true_iff in Ed as [Ex Ey]. apply negb_true_iff, Z.eqb_neq in Ex. apply negb_true_iff, Z.eqb_neq in Ey.
    assert (HI1 : InMap (wd_w W) (wd_h W) x (y + dy)) by (destruct HI, Ew; split; done).
    assert (HI2 : InMap (wd_w W) (wd_h W) (x + dx) y) by (destruct HI, Ew; split; done).
    destruct (intersect_spec _ _ HI1) as (b1 & Hb1 & Hp1). rewrite Hb1. cbn [obind].
    destruct b1; cbn [negb].
    2:{ right. split; [|done]. intros c (_ & _ & _ & _ & H). destruct H as (_ & _ & H & _); [done|]. apply Hp1 in H. done. }
    destruct (intersect_spec _ _ HI2) as (b2 & Hb2 & Hp2). rewrite Hb2. cbn [obind].
    destruct b2; cbn [negb].
    2:{ right. split; [|done]. intros c (_ & _ & _ & _ & H). destruct H as (_ & _ & _ & H & _); [done|]. apply Hp2 in H. done. }
    rewrite !grid_in by done. cbn [obind]. rewrite !uu_max_spec.
    destruct (Z.max _ _ >=? _) eqn:Em.
    + right. split; [|done]. rewrite Z.geb_leb in Em. apply Z.leb_le in Em.
      intros c (_ & H1 & H2 & _ & H). destruct H as (H3 & H4 & _); [done|]. lia.
    + rewrite Z.geb_leb in Em. apply Z.leb_gt in Em. left. eexists. split; [|reflexivity].
      split; [done|]. split; [lia|]. split; [lia|]. split; [intros [?|?]; lia|]. intros _.
      split; [lia|]. split; [lia|]. split; [apply Hp1; done|]. split; [apply Hp2; done|].
      f_equal. f_equal. lia.
  - cbn [obind]. rewrite uu_max_spec.
    assert (Hz : dx = 0 \/ dy = 0).
    { apply andb_false_iff in Ed as [E|E]; apply negb_false_iff, Z.eqb_eq in E; lia. }
    destruct (Z.max _ _ >=? _) eqn:Em.
    + rewrite Z.geb_leb in Em. apply Z.leb_le in Em. lia.
    + left. eexists. split; [|reflexivity].
      split; [done|]. split; [done|]. split; [done|]. split; [done|]. intros [? ?]; lia.
Qed.

Definition nbr x y p k : option uuact :=
  match uu_neighbour s upd (existsb hvar_lt_eps upd) false p (uu_toid x y) x y (wd_cost W x y) k with
  | Ok o => o
  | _ => None
  end.

Lemma Dir_of_k k : 0 <= k < 8 -> exists dx dy, Dir k dx dy.
Proof.
  intros Hk. assert (H : k = 0 \/ k = 1 \/ k = 2 \/ k = 3 \/ k = 4 \/ k = 5 \/ k = 6 \/ k = 7) by lia.
  unfold Dir. destruct H as [-> | [-> | [-> | [-> | [-> | [-> | [-> | ->]]]]]]];
    eexists _, _; repeat (first [apply elem_of_list_here | apply elem_of_list_further]).
Qed.
Lemma Dir_range k dx dy : Dir k dx dy -> 0 <= k < 8.
Proof.
  intros HD. unfold Dir in HD. repeat (apply elem_of_cons in HD as [HD|HD]; [injection HD as -> -> ->; lia|]).
  by apply elem_of_nil in HD.
Qed.
Lemma Dir_fun k dx dy dx' dy' : Dir k dx dy -> Dir k dx' dy' -> dx = dx' /\ dy = dy'.
Proof.
  intros HD HD'. unfold Dir in HD, HD'.
  repeat (apply elem_of_cons in HD as [HD|HD];
    [injection HD as -> -> ->;
     repeat (apply elem_of_cons in HD' as [HD'|HD']; [try discriminate; injection HD'; intros; subst; done|]);
     by apply elem_of_nil in HD'|]).
  by apply elem_of_nil in HD.
Qed.

Lemma loop_spec x y p hid is acc :
  InMap (wd_w W) (wd_h W) x y -> wd_cost W x y < wd_thr W -> (forall k, k ∈ is -> 0 <= k < 8) ->
  uu_loop s upd (existsb hvar_lt_eps upd) false p (uu_toid x y) x y (wd_cost W x y) hid is acc =
  Ok (acc.1.1, acc.1.2 ++ omap (nbr x y p) is, acc.2 ++ repeat (hid, 1) (length (omap (nbr x y p) is))).
Proof.
  intros HI Hc. revert acc. induction is as [|k is IH]; intros [[a1 a2] a3] Hk.
  - simpl. rewrite !app_nil_r. done.
  - unfold uu_loop in *. cbn [uu_for].
    destruct (Dir_of_k k) as (dx & dy & HD); [apply Hk; left|].
    assert (Hk' : forall k, k ∈ is -> 0 <= k < 8) by (intros k' ?; apply Hk; right; done).
    change (omap (nbr x y p) (k :: is)) with
      (match nbr x y p k with Some a => a :: omap (nbr x y p) is | None => omap (nbr x y p) is end).
    destruct (neighbour_spec x y k dx dy p HI Hc HD) as [(c & _ & Hn)|[_ Hn]];
      (match type of Hn with _ = Ok ?o => assert (Hnb : nbr x y p k = o) by (unfold nbr; rewrite Hn; done) end);
      rewrite Hn, Hnb; cbn [obind].
    + rewrite IH by done. cbn [fst snd length repeat]. rewrite <-!app_assoc. done.
    + rewrite IH by done. done.
Qed.

Lemma nbr_spec x y p a :
  InMap (wd_w W) (wd_h W) x y -> wd_cost W x y < wd_thr W ->
  a ∈ omap (nbr x y p) (seqZ 0 8) <-> MoveAction W upd x y p a.
Proof.
  intros HI Hc. rewrite elem_of_list_omap. unfold MoveAction, nbr. split.
  - intros (k & Hk & Hn). rewrite elem_of_seqZ in Hk. destruct (Dir_of_k k) as (dx & dy & HD); [lia|].
    destruct (neighbour_spec x y k dx dy p HI Hc HD) as [(c & HM & Hnb)|[_ Hnb]]; rewrite Hnb in Hn; [|done].
    injection Hn as <-. exists k, dx, dy, c. split; [done|]. split; [done|]. simpl.
    unfold uu_toid, UU_MAXWH. f_equal; [lia|]. f_equal; [f_equal; f_equal; lia|]. do 3 f_equal. lia.
  - intros (k & dx & dy & c & HD & HM & ->). exists k. split; [rewrite elem_of_seqZ; pose proof (Dir_range _ _ _ HD); lia|].
    destruct (neighbour_spec x y k dx dy p HI Hc HD) as [(c' & HM' & Hnb)|[Hno Hnb]]; [|exfalso; by apply (Hno c)].
    rewrite Hnb.
    assert (c' = c) as ->.
    { destruct HM as (_ & _ & _ & H1 & H2). destruct HM' as (_ & _ & _ & H1' & H2').
      destruct (decide (dx = 0 \/ dy = 0)) as [Hz|Hz].
      - rewrite H1, H1' by done. done.
      - destruct H2 as (_ & _ & _ & _ & ->); [lia|]. destruct H2' as (_ & _ & _ & _ & ->); [lia|]. done. }
    f_equal. simpl.
    unfold uu_toid, UU_MAXWH. f_equal; [lia|]. f_equal; [f_equal; f_equal; lia|]. do 3 f_equal. lia.
Qed.

Lemma nbr_NoDup x y p :
  InMap (wd_w W) (wd_h W) x y -> wd_cost W x y < wd_thr W -> NoDup (omap (nbr x y p) (seqZ 0 8)).
Proof.
  intros HI Hc.
  assert (Hid : forall k a, 0 <= k < 8 -> nbr x y p k = Some a -> ua_id a = k).
  { intros k a Hk Hn. unfold nbr in Hn. destruct (Dir_of_k k) as (dx & dy & HD); [done|].
    destruct (neighbour_spec x y k dx dy p HI Hc HD) as [(c & HM & Hnb)|[_ Hnb]]; rewrite Hnb in Hn; [|done].
    injection Hn as <-. done. }
  assert (Hgen : forall is, (forall k, k ∈ is -> 0 <= k < 8) -> NoDup is -> NoDup (omap (nbr x y p) is)).
  { induction is as [|k is IH]; intros Hk Hnd; [constructor|].
    apply NoDup_cons in Hnd as [Hni Hnd].
    change (omap (nbr x y p) (k :: is)) with
      (match nbr x y p k with Some a => a :: omap (nbr x y p) is | None => omap (nbr x y p) is end).
    assert (IHis : NoDup (omap (nbr x y p) is)) by (apply IH; [intros k' ?; apply Hk; right; done|done]).
    destruct (nbr x y p k) as [a|] eqn:En; [|done].
    apply NoDup_cons. split; [|done]. intros (k' & Hk' & Hn')%elem_of_list_omap.
    apply Hid in En; [|apply Hk; left]. apply Hid in Hn'; [|apply Hk; right; done]. congruence. }
  apply Hgen; [|apply NoDup_seqZ]. intros k Hk. rewrite elem_of_seqZ in Hk. lia.
Qed.

(** ** GetPreds *)
Lemma getpreds_spec x y p :
  uu_ndirs s = 8 -> InMap (wd_w W) (wd_h W) x y -> y < 1024 ->
  Believed upd (wd_hid W x y) (wd_prob W x y) p ->
  (wd_cost W x y < wd_thr W -> ~ SurelyBlocked p ->
   uu_GetPreds s (uu_toid x y) upd =
   Ok ([], omap (nbr x y p) (seqZ 0 8), repeat (wd_hid W x y, 1) (length (omap (nbr x y p) (seqZ 0 8))))) /\
  (wd_thr W <= wd_cost W x y \/ SurelyBlocked p -> uu_GetPreds s (uu_toid x y) upd = Ok ([], [], [])).
Proof.
  intros Hnd HI Hy Hbel. unfold uu_GetPreds.
  destruct (toid_inv x y) as [-> ->]; [destruct HI; lia|destruct HI; lia|].
  replace (uu_within s x y) with true by (symmetry; apply within_W; done). cbn [negb].
  rewrite grid_in by done. rewrite (wi_thr _ _ HW). rewrite (wi_unc _ _ HW), (wi_hid _ _ HW) by (try done; destruct HI; lia).
  pose proof (scan_prob upd (wd_hid W x y) (wd_prob W x y) false) as Hsp.
  pose proof (scan_free upd (wd_hid W x y) (wd_prob W x y) false) as Hsf. simpl in Hsf.
  rewrite (Believed_det _ _ _ _ _ Hbel Hsp). clear Hbel p.
  destruct (uu_scan upd (wd_hid W x y) (wd_prob W x y) false) as [p fr] eqn:Esc. cbn [fst snd] in *. subst fr.
  assert (Hblk : qltb (1 - UU_EPS) p = true <-> SurelyBlocked p).
  { rewrite qltb_spec. unfold SurelyBlocked, UU_EPS. split; intros H; lra. }
  split.
  - intros Hc Hnb. replace (wd_cost W x y >=? wd_thr W) with false.
    2:{ symmetry. rewrite Z.geb_leb. apply Z.leb_gt. lia. }
    destruct (qltb (1 - UU_EPS) p) eqn:Eb; [exfalso; apply Hnb, Hblk; done|].
    assert (Hdet : (if qltb p UU_EPS then false else qltb (wd_prob W x y) UU_EPS) = false).
    { destruct (qltb p UU_EPS) eqn:Ep; [done|].
      destruct Hsp as [(l1 & q & l2 & He & _ & ->)|[_ ->]]; [|done].
      exfalso. assert (Hq : 0 <= q <= 255) by (apply (HB (wd_hid W x y) q); rewrite He; apply in_or_app; right; left; done).
      destruct (decide (q = 0)) as [-> | Hq0].
      - assert (qltb (inject_Z 0) UU_EPS = true) by (apply qltb_spec; apply inject_Z_eps; lia). congruence.
      - apply Hnb. unfold SurelyBlocked. apply inject_Z_blocked. lia. }
    rewrite Hdet, Hnd. rewrite loop_spec; [done|done|done|].
    intros k Hk. rewrite elem_of_seqZ in Hk. lia.
  - intros [Hc|Hb].
    + replace (wd_cost W x y >=? wd_thr W) with true; [done|]. symmetry. rewrite Z.geb_leb. apply Z.leb_le. done.
    + destruct (wd_cost W x y >=? wd_thr W); [done|].
      apply Hblk in Hb. rewrite Hb. done.
Qed.

Lemma getpreds_other id :
  (forall x y, InMap (wd_w W) (wd_h W) x y -> id <> uu_toid x y) -> uu_GetPreds s id upd = Ok ([], [], []).
Proof.
  intros H. unfold uu_GetPreds. destruct (uu_within s (uu_tox id) (uu_toy id)) eqn:E; [|done].
  exfalso. apply within_W in E. apply (H _ _ E). destruct E. symmetry. apply toid_of_id; lia.
Qed.
End Neighbour.

Lemma getpreds_nodirs W s id upd :
  winv W s -> wd_h W <= wd_w W -> uu_ndirs s <= 0 -> uu_GetPreds s id upd = Ok ([], [], []).
Proof.
  intros HW Hsq Hn. unfold uu_GetPreds. destruct (uu_within s (uu_tox id) (uu_toy id)) eqn:E; [|done].
  apply within_spec in E. rewrite (wi_w _ _ HW), (wi_h _ _ HW) in E. cbn [negb].
  rewrite (wi_grid _ _ HW), decide_True by done.
  destruct (_ >=? _); [done|]. rewrite (wi_unc _ _ HW), (wi_hid _ _ HW) by (try done; destruct E; lia).
  destruct (uu_scan _ _ _ _) as [p fr]. destruct (qltb _ p); [done|].
  rewrite seqZ_nil by lia. done.
Qed.

(** On a tall map the cells below the square have no variable: GetPreds reads unwritten memory. *)
Lemma getpreds_nohid s id upd c :
  uu_within s (uu_tox id) (uu_toy id) = true -> uu_grid s !! (uu_tox id, uu_toy id) = Some c -> c < uu_thr s ->
  uu_hid s !! (uu_tox id, uu_toy id) = None -> uu_GetPreds s id upd = UB.
Proof.
  intros H1 H2 H3 H4. unfold uu_GetPreds. rewrite H1, H2, H4. cbn [negb].
  replace (c >=? uu_thr s) with false by (symmetry; rewrite Z.geb_leb; apply Z.leb_gt; done).
  destruct (uu_unc s !! _); done.
Qed.

(** ** Moves are symmetric *)
Lemma Dir_rev k dx dy : Dir k dx dy -> Dir (7 - k) (- dx) (- dy).
Proof.
  intros HD. unfold Dir in *.
  repeat (apply elem_of_cons in HD as [HD|HD];
    [injection HD as -> -> ->; repeat (first [apply elem_of_list_here | apply elem_of_list_further])|]).
  by apply elem_of_nil in HD.
Qed.
Lemma Move_rev W upd x y dx dy c :
  InMap (wd_w W) (wd_h W) x y -> Move W upd x y dx dy c -> Move W upd (x + dx) (y + dy) (- dx) (- dy) c.
Proof.
  intros HI (H1 & H2 & H3 & H4 & H5). unfold Move.
  replace (x + dx + - dx) with x by lia. replace (y + dy + - dy) with y by lia.
  split; [done|]. split; [done|]. split; [done|]. split.
  - intros Hz. rewrite H4 by lia. f_equal. f_equal. lia.
  - intros Hz. destruct H5 as (G1 & G2 & G3 & G4 & ->); [lia|]. split_and!; try done.
    f_equal. f_equal. lia.
Qed.
