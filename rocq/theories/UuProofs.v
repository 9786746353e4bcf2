(** Proofs about EnvironmentNAV2DUU: InitializeEnv. *)
From Verif Require Import Base EvalModel UuModel UuSpec.
From Coq Require Import Lqa.
Local Open Scope Z_scope.

Lemma uu_for_app {St} l1 l2 (body : Z -> St -> outcome unit St) s :
  uu_for (l1 ++ l2) body s = obind (uu_for l1 body s) (uu_for l2 body).
Proof. revert s. induction l1 as [|i l1 IH]; intros s; simpl; [done|]. destruct (body i s); simpl; auto. Qed.

(** A loop over any list of items (proof device for nested loops). *)
Fixpoint gfor {I St} (is : list I) (body : I -> St -> outcome unit St) (s : St) : outcome unit St :=
  match is with
  | [] => Ok s
  | i :: is => do s' <- body i s; gfor is body s'
  end.
Lemma gfor_app {I St} l1 l2 (body : I -> St -> outcome unit St) s :
  gfor (l1 ++ l2) body s = obind (gfor l1 body s) (gfor l2 body).
Proof. revert s. induction l1 as [|i l1 IH]; intros s; simpl; [done|]. destruct (body i s); simpl; auto. Qed.

(** The cells in the order of two nested loops. *)
Definition ncells (os is : list Z) : list (Z * Z) := o ← os; (fun i => (o, i)) <$> is.

Lemma gfor_fmap {St} o is (body : Z * Z -> St -> outcome unit St) s :
  gfor ((fun i => (o, i)) <$> is) body s = uu_for is (fun i => body (o, i)) s.
Proof.
  revert s. induction is as [|i is IH]; intros s; simpl; [done|].
  destruct (body (o, i) s); simpl; auto.
Qed.
Lemma nested_gfor {St} os is (body : Z -> Z -> St -> outcome unit St) s :
  uu_for os (fun o => uu_for is (fun i => body o i)) s = gfor (ncells os is) (fun c => body c.1 c.2) s.
Proof.
  revert s. induction os as [|o os IH]; intros s; [done|].
  unfold ncells. simpl. rewrite gfor_app, gfor_fmap. simpl.
  destruct (uu_for is (fun i => body o i) s); simpl; auto.
Qed.

Lemma elem_of_ncells os is o i : (o, i) ∈ ncells os is <-> o ∈ os /\ i ∈ is.
Proof.
  unfold ncells. rewrite elem_of_list_bind. split.
  - intros (o' & H & Ho). apply elem_of_list_fmap in H as (i' & Heq & Hi). injection Heq as -> ->. done.
  - intros [Ho Hi]. exists o. split; [|done]. apply elem_of_list_fmap. exists i. done.
Qed.
Lemma NoDup_ncells os is : NoDup os -> NoDup is -> NoDup (ncells os is).
Proof.
  intros Hos His. induction os as [|o os IH]; [constructor|].
  apply NoDup_cons in Hos as [Ho Hos]. unfold ncells. simpl. apply NoDup_app. split_and!.
  - apply NoDup_fmap_2; [|done]. intros i j Heq. congruence.
  - intros [o' i'] H1 H2. apply elem_of_list_fmap in H1 as (i & Heq & _). injection Heq as -> ->.
    change (os ≫= (fun o => (fun i => (o, i)) <$> is)) with (ncells os is) in H2.
    apply elem_of_ncells in H2 as [H2 _]. done.
  - apply IH. done.
Qed.

(** ** The tests on probabilities *)
Lemma uu_uncertain_spec p : uu_uncertain p = true <-> Uncertain p.
Proof.
  unfold uu_uncertain, Uncertain, qgeb, UU_EPS. rewrite andb_true_iff, !Qle_bool_iff.
  split; intros [H1 H2]; split; try done; lra.
Qed.
Lemma qltb_spec x y : qltb x y = true <-> (x < y)%Q.
Proof.
  unfold qltb. rewrite negb_true_iff. split.
  - intros H. apply Qnot_le_lt. intros Hle. apply Qle_bool_iff in Hle. congruence.
  - intros H. destruct (Qle_bool y x) eqn:E; [|done]. apply Qle_bool_iff in E. exfalso. lra.
Qed.

(** ** The map *)
Definition icell (w h : Z) (map : option (list Z)) (umap : option (list Q)) (c : Z * Z)
    (s : gmap (Z * Z) Z * gmap (Z * Z) Q * Z) := uu_setcell w map umap c.1 c.2 s.

Lemma uu_read_nth {A} (l : list A) i d : 0 <= i < Z.of_nat (length l) -> uu_read l i = Some (nth (Z.to_nat i) l d).
Proof.
  intros H. unfold uu_read. replace (i <? 0) with false by (symmetry; apply Z.ltb_ge; lia).
  destruct (lookup_lt_is_Some_2 l (Z.to_nat i)) as [v Hv]; [lia|].
  rewrite Hv. f_equal. symmetry. apply nth_lookup_Some with (d := d) in Hv. done.
Qed.

Lemma setcell_ok w h map umap x y g u n :
  MapOk w h map umap -> InMap w h x y ->
  uu_setcell w map umap y x (g, u, n) =
  Ok (<[(x, y) := MapCost w map x y]> g, <[(x, y) := MapProb w map umap x y]> u,
      if uu_uncertain (MapProb w map umap x y) then n + 1 else n).
Proof.
  intros (Hw & Hh & Hm) [Hx Hy]. unfold uu_setcell, MapCost, MapProb.
  destruct map as [m|]; [|done].
  destruct Hm as (um & -> & Hl & Hlu).
  assert (0 <= x + y * w < w * h) by nia.
  rewrite (uu_read_nth m _ 0) by lia. rewrite (uu_read_nth um _ 0%Q) by lia. done.
Qed.

Definition ucount (P : Z * Z -> bool) (l : list (Z * Z)) : Z := Z.of_nat (length (filter (fun c => P c = true) l)).
Lemma ucount_cons P c l : ucount P (c :: l) = (if P c then 1 else 0) + ucount P l.
Proof. unfold ucount. rewrite filter_cons. destruct (decide _) as [H|H]; simpl in *; destruct (P c); try done; simpl; lia. Qed.
Lemma ucount_perm P l1 l2 : l1 ≡ₚ l2 -> ucount P l1 = ucount P l2.
Proof. intros H. unfold ucount. rewrite H. done. Qed.
Lemma ucount_app P l1 l2 : ucount P (l1 ++ l2) = ucount P l1 + ucount P l2.
Proof. unfold ucount. rewrite filter_app, app_length. lia. Qed.
Lemma ucount_fmap P (f : Z * Z -> Z * Z) l : ucount (fun c => P (f c)) l = ucount P (f <$> l).
Proof.
  induction l as [|c l IH]; [done|]. rewrite fmap_cons, !ucount_cons, IH. done.
Qed.

Lemma setconf_loop w h map umap (L : list (Z * Z)) g u n :
  MapOk w h map umap -> (forall y x, (y, x) ∈ L -> InMap w h x y) ->
  exists g' u',
    gfor L (fun c => uu_setcell w map umap c.1 c.2) (g, u, n) =
      Ok (g', u', n + ucount (fun c => uu_uncertain (MapProb w map umap c.2 c.1)) L) /\
    (forall x y, g' !! (x, y) = if decide ((y, x) ∈ L) then Some (MapCost w map x y) else g !! (x, y)) /\
    (forall x y, u' !! (x, y) = if decide ((y, x) ∈ L) then Some (MapProb w map umap x y) else u !! (x, y)).
Proof.
  intros HM. revert g u n. induction L as [|[y x] L IH]; intros g u n HL.
  - exists g, u. simpl. unfold ucount. simpl. split; [do 2 f_equal; lia|]. split; intros a b; done.
  - assert (HI : InMap w h x y) by (apply HL; left).
    cbn [gfor fst snd]. rewrite (setcell_ok w h) by done. cbn [obind].
    destruct (IH (<[(x, y):=MapCost w map x y]> g) (<[(x, y):=MapProb w map umap x y]> u)
                 (if uu_uncertain (MapProb w map umap x y) then n + 1 else n)) as (g' & u' & Hr & Hg & Hu).
    { intros y' x' H. apply HL. right. done. }
    exists g', u'. split_and!.
    + rewrite Hr. rewrite ucount_cons. cbn [fst snd]. destruct (uu_uncertain _); do 2 f_equal; lia.
    + intros a b. rewrite Hg. destruct (decide ((b, a) ∈ L)) as [Hin|Hin].
      * rewrite decide_True by (right; done). done.
      * destruct (decide ((a, b) = (x, y))) as [Heq|Hne].
        -- injection Heq as -> ->. rewrite decide_True by left. apply lookup_insert.
        -- rewrite lookup_insert_ne by congruence. rewrite decide_False; [done|].
           intros [Heq|Hin']%elem_of_cons; [congruence|done].
    + intros a b. rewrite Hu. destruct (decide ((b, a) ∈ L)) as [Hin|Hin].
      * rewrite decide_True by (right; done). done.
      * destruct (decide ((a, b) = (x, y))) as [Heq|Hne].
        -- injection Heq as -> ->. rewrite decide_True by left. apply lookup_insert.
        -- rewrite lookup_insert_ne by congruence. rewrite decide_False; [done|].
           intros [Heq|Hin']%elem_of_cons; [congruence|done].
Qed.

Definition zswap (c : Z * Z) : Z * Z := (c.2, c.1).
Definition yxcells (w h : Z) : list (Z * Z) := ncells (seqZ 0 h) (seqZ 0 w).
Lemma elem_of_yxcells w h x y : (y, x) ∈ yxcells w h <-> InMap w h x y.
Proof. unfold yxcells, InMap. rewrite elem_of_ncells, !elem_of_seqZ. lia. Qed.
Lemma NoDup_yxcells w h : NoDup (yxcells w h).
Proof. apply NoDup_ncells; apply NoDup_seqZ. Qed.

Global Instance InMap_dec w h x y : Decision (InMap w h x y).
Proof. unfold InMap. apply _. Qed.

Definition isunc w map umap (c : Z * Z) : bool := uu_uncertain (MapProb w map umap c.1 c.2).

Lemma setconf_ok w h map umap :
  MapOk w h map umap ->
  exists g u,
    uu_SetConfiguration w h map umap = Ok (g, u, ucount (isunc w map umap) (zswap <$> yxcells w h)) /\
    (forall x y, g !! (x, y) = if decide (InMap w h x y) then Some (MapCost w map x y) else None) /\
    (forall x y, u !! (x, y) = if decide (InMap w h x y) then Some (MapProb w map umap x y) else None).
Proof.
  intros HM. pose proof HM as (Hw & Hh & _). unfold uu_SetConfiguration.
  replace ((w <? 0) || ((0 <? w) && (h <? 0))) with false.
  2:{ symmetry. apply orb_false_iff. split; [apply Z.ltb_ge; lia|]. apply andb_false_iff. right. apply Z.ltb_ge. lia. }
  rewrite (nested_gfor (seqZ 0 h) (seqZ 0 w) (fun y x => uu_setcell w map umap y x)).
  destruct (setconf_loop w h map umap (yxcells w h) ∅ ∅ 0 HM) as (g & u & Hr & Hg & Hu).
  { intros y x. apply elem_of_yxcells. }
  exists g, u. split_and!.
  - unfold yxcells in *. rewrite Hr. do 2 f_equal. simpl.
    rewrite <-(ucount_fmap (isunc w map umap) zswap). done.
  - intros x y. rewrite Hg. destruct (decide (InMap w h x y)) as [H|H].
    + rewrite decide_True by (apply elem_of_yxcells; done). done.
    + rewrite decide_False by (rewrite elem_of_yxcells; done). apply lookup_empty.
  - intros x y. rewrite Hu. destruct (decide (InMap w h x y)) as [H|H].
    + rewrite decide_True by (apply elem_of_yxcells; done). done.
    + rewrite decide_False by (rewrite elem_of_yxcells; done). apply lookup_empty.
Qed.

(** ** The hidden variables *)
Lemma hid_loop_UB u (L : list (Z * Z)) s x y :
  (x, y) ∈ L -> u !! (x, y) = None -> gfor L (fun c => uu_hidcell u c.1 c.2) s = UB.
Proof.
  revert s. induction L as [|[a b] L IH]; intros s Hin Hu; [by apply elem_of_nil in Hin|].
  cbn [gfor fst snd]. apply elem_of_cons in Hin as [Heq|Hin].
  - injection Heq as -> ->. unfold uu_hidcell. rewrite Hu. done.
  - unfold uu_hidcell at 1. destruct (u !! (a, b)) as [p|]; [|done].
    destruct (uu_uncertain p); cbn [obind]; apply IH; done.
Qed.

Lemma hid_loop_ok u (pr : Z * Z -> Q) (L : list (Z * Z)) m k :
  NoDup L -> (forall c, c ∈ L -> u !! c = Some (pr c)) ->
  exists m', gfor L (fun c => uu_hidcell u c.1 c.2) (m, k) = Ok (m', k + ucount (fun c => uu_uncertain (pr c)) L) /\
    (forall c, ~ c ∈ L -> m' !! c = m !! c) /\
    (forall c, c ∈ L -> uu_uncertain (pr c) = false -> m' !! c = Some (-1)) /\
    (forall c, c ∈ L -> uu_uncertain (pr c) = true ->
       exists i, m' !! c = Some i /\ k <= i < k + ucount (fun c => uu_uncertain (pr c)) L) /\
    (forall c c' i, c ∈ L -> c' ∈ L -> uu_uncertain (pr c) = true -> uu_uncertain (pr c') = true ->
       m' !! c = Some i -> m' !! c' = Some i -> c = c').
Proof.
  revert m k. induction L as [|[x y] L IH]; intros m k Hnd HL.
  { exists m. simpl. unfold ucount. simpl. split_and!; try (intros; by (exfalso; eapply not_elem_of_nil; eauto)); [|done].
    do 2 f_equal. lia. }
  apply NoDup_cons in Hnd as [Hni Hnd].
  assert (Hu : u !! (x, y) = Some (pr (x, y))) by (apply HL; left).
  cbn [gfor fst snd]. unfold uu_hidcell at 1. rewrite Hu. cbn [fst snd].
  destruct (uu_uncertain (pr (x, y))) eqn:EU; cbn [obind].
  - destruct (IH (<[(x, y):=k]> m) (k + 1) Hnd) as (m' & Hr & Ho & Hc & Hi & Hj).
    { intros c Hc. apply HL. right. done. }
    exists m'. rewrite ucount_cons, EU.
    assert (Hnn : 0 <= ucount (fun c => uu_uncertain (pr c)) L) by (unfold ucount; lia).
    assert (Hxy : m' !! (x, y) = Some k) by (rewrite Ho by done; apply lookup_insert).
    split_and!.
    + rewrite Hr. do 2 f_equal. lia.
    + intros c Hn. apply not_elem_of_cons in Hn as [Hne Hn]. rewrite Ho by done. apply lookup_insert_ne. congruence.
    + intros c [-> | Hin]%elem_of_cons Hf; [congruence|]. apply Hc; done.
    + intros c [-> | Hin]%elem_of_cons Ht.
      * exists k. split; [done|lia].
      * destruct (Hi c Hin Ht) as (i & Hmi & Hb). exists i. split; [done|lia].
    + intros c c' i [-> | Hin]%elem_of_cons [-> | Hin']%elem_of_cons Ht Ht' H1 H2; [done| | |].
      * exfalso. destruct (Hi c' Hin' Ht') as (j & Hmj & Hb). rewrite Hxy in H1. rewrite Hmj in H2.
        injection H1 as ->. injection H2 as ->. lia.
      * exfalso. destruct (Hi c Hin Ht) as (j & Hmj & Hb). rewrite Hxy in H2. rewrite Hmj in H1.
        injection H1 as ->. injection H2 as ->. lia.
      * eapply Hj; eauto.
  - destruct (IH (<[(x, y):=-1]> m) k Hnd) as (m' & Hr & Ho & Hc & Hi & Hj).
    { intros c Hc. apply HL. right. done. }
    exists m'. rewrite ucount_cons, EU. split_and!.
    + rewrite Hr. done.
    + intros c Hn. apply not_elem_of_cons in Hn as [Hne Hn]. rewrite Ho by done. apply lookup_insert_ne. congruence.
    + intros c [-> | Hin]%elem_of_cons Hf; [|apply Hc; done]. rewrite Ho by done. apply lookup_insert.
    + intros c [-> | Hin]%elem_of_cons Ht; [congruence|].
      destruct (Hi c Hin Ht) as (i & Hmi & Hb). exists i. split; [done|lia].
    + intros c c' i [-> | Hin]%elem_of_cons [-> | Hin']%elem_of_cons Ht Ht' H1 H2; [done|congruence|congruence|].
      eapply Hj; eauto.
Qed.

Lemma hid_loop_surj u (pr : Z * Z -> Q) (L : list (Z * Z)) m k m' k' :
  NoDup L -> (forall c, c ∈ L -> u !! c = Some (pr c)) ->
  gfor L (fun c => uu_hidcell u c.1 c.2) (m, k) = Ok (m', k') ->
  forall i, k <= i < k' -> exists c, c ∈ L /\ uu_uncertain (pr c) = true /\ m' !! c = Some i.
Proof.
  revert m k. induction L as [|[x y] L IH]; intros m k Hnd HL Hr i Hi.
  { simpl in Hr. injection Hr as -> ->. lia. }
  apply NoDup_cons in Hnd as [Hni Hnd].
  assert (Hu : u !! (x, y) = Some (pr (x, y))) by (apply HL; left).
  assert (HL' : forall c, c ∈ L -> u !! c = Some (pr c)) by (intros c Hc; apply HL; right; done).
  cbn [gfor fst snd] in Hr. unfold uu_hidcell at 1 in Hr. rewrite Hu in Hr. cbn [fst snd] in Hr.
  destruct (uu_uncertain (pr (x, y))) eqn:EU; cbn [obind] in Hr.
  - destruct (decide (i = k)) as [-> | Hne].
    + exists (x, y). split; [left|]. split; [done|].
      destruct (hid_loop_ok u pr L (<[(x, y):=k]> m) (k + 1) Hnd HL') as (m2 & Hr2 & Ho & _).
      rewrite Hr2 in Hr. injection Hr as -> _. rewrite Ho by done. apply lookup_insert.
    + destruct (IH _ _ Hnd HL' Hr i) as (c & Hc & H1 & H2); [lia|]. exists c. split; [right; done|]. done.
  - destruct (IH _ _ Hnd HL' Hr i) as (c & Hc & H1 & H2); [lia|]. exists c. split; [right; done|]. done.
Qed.

Definition xxcells (w : Z) : list (Z * Z) := ncells (seqZ 0 w) (seqZ 0 w).
Lemma elem_of_xxcells w x y : (x, y) ∈ xxcells w <-> InMap w w x y.
Proof. unfold xxcells, InMap. rewrite elem_of_ncells, !elem_of_seqZ. lia. Qed.
Lemma NoDup_xxcells w : NoDup (xxcells w).
Proof. apply NoDup_ncells; apply NoDup_seqZ. Qed.

Lemma elem_of_swapped w h x y : (x, y) ∈ zswap <$> yxcells w h <-> InMap w h x y.
Proof.
  rewrite elem_of_list_fmap. split.
  - intros ([b a] & Heq & Hin). simpl in Heq. injection Heq as -> ->. apply elem_of_yxcells. done.
  - intros H. exists (y, x). split; [done|]. apply elem_of_yxcells. done.
Qed.
Lemma NoDup_swapped w h : NoDup (zswap <$> yxcells w h).
Proof.
  apply NoDup_fmap_2; [|apply NoDup_yxcells]. intros [a b] [c d] H. unfold zswap in H. simpl in H. congruence.
Qed.

Lemma hidden_loop_eq w u s :
  uu_for (seqZ 0 w) (fun x => uu_for (seqZ 0 w) (fun y => uu_hidcell u x y)) s =
  gfor (xxcells w) (fun c => uu_hidcell u c.1 c.2) s.
Proof. apply (nested_gfor (seqZ 0 w) (seqZ 0 w) (fun x y => uu_hidcell u x y)). Qed.

Definition ucells_rest (w h : Z) : list (Z * Z) := zswap <$> ncells (seqZ w (h - w)) (seqZ 0 w).
Lemma elem_of_rest w h x y : (x, y) ∈ ucells_rest w h <-> 0 <= x < w /\ w <= y < h.
Proof.
  unfold ucells_rest. rewrite elem_of_list_fmap. split.
  - intros ([b a] & Heq & Hin). unfold zswap in Heq. simpl in Heq. injection Heq as -> ->.
    apply elem_of_ncells in Hin as [H1 H2]. rewrite !elem_of_seqZ in *. lia.
  - intros H. exists (y, x). split; [done|]. apply elem_of_ncells. rewrite !elem_of_seqZ. lia.
Qed.
Lemma cells_split w h : 0 <= w <= h -> zswap <$> yxcells w h ≡ₚ xxcells w ++ ucells_rest w h.
Proof.
  intros Hwh. apply NoDup_Permutation.
  - apply NoDup_swapped.
  - apply NoDup_app. split_and!.
    + apply NoDup_xxcells.
    + intros [x y] H1 H2. apply elem_of_xxcells in H1 as [? ?]. apply elem_of_rest in H2. lia.
    + unfold ucells_rest. apply NoDup_fmap_2; [|apply NoDup_ncells; apply NoDup_seqZ].
      intros [a b] [c d] H. unfold zswap in H. simpl in H. congruence.
  - intros [x y]. rewrite elem_of_swapped, elem_of_app, elem_of_xxcells, elem_of_rest. unfold InMap. lia.
Qed.
Lemma ucount_zero P l : ucount P l = 0 <-> forall c, c ∈ l -> P c = false.
Proof.
  induction l as [|c l IH].
  - split; [|done]. intros _ c Hc. by apply elem_of_nil in Hc.
  - rewrite ucount_cons. assert (0 <= ucount P l) by (unfold ucount; lia). split.
    + intros H0. assert (P c = false) by (destruct (P c); [lia|done]).
      assert (ucount P l = 0) by (destruct (P c); lia).
      intros c' [-> | Hin]%elem_of_cons; [done|]. apply IH; done.
    + intros H0. rewrite (H0 c) by left. replace (ucount P l) with 0; [done|].
      symmetry. apply IH. intros c' Hc'. apply H0. right. done.
Qed.

Record init_state (nd w h : Z) map umap thr (s : uuenv) : Prop := {
  is_w : uu_w s = w; is_h : uu_h s = h; is_thr : uu_thr s = thr; is_nd : uu_ndirs s = nd;
  is_S : uu_sizeS s = w * h;
  is_H : uu_sizeH s = ucount (isunc w map umap) (xxcells w ++ ucells_rest w h);
  is_ids : uu_startid s = 0 /\ uu_goalid s = 0;
  is_grid : forall x y, uu_grid s !! (x, y) = if decide (InMap w h x y) then Some (MapCost w map x y) else None;
  is_unc : forall x y, uu_unc s !! (x, y) = if decide (InMap w h x y) then Some (MapProb w map umap x y) else None;
  is_hid_none : forall x y, ~ InMap w w x y -> uu_hid s !! (x, y) = None;
  is_hid_cert : forall x y, InMap w w x y -> ~ Uncertain (MapProb w map umap x y) -> uu_hid s !! (x, y) = Some (-1);
  is_hid_unc : forall x y, InMap w w x y -> Uncertain (MapProb w map umap x y) ->
    exists i, uu_hid s !! (x, y) = Some i /\ 0 <= i < uu_sizeH s;
  is_hid_inj : forall x y x' y' i, InMap w w x y -> InMap w w x' y' -> Uncertain (MapProb w map umap x y) ->
    Uncertain (MapProb w map umap x' y') -> uu_hid s !! (x, y) = Some i -> uu_hid s !! (x', y') = Some i ->
    (x, y) = (x', y');
  is_hid_surj : forall i, 0 <= i < uu_sizeH s ->
    exists x y, InMap w w x y /\ Uncertain (MapProb w map umap x y) /\ uu_hid s !! (x, y) = Some i }.

Lemma uncertain_false p : uu_uncertain p = false <-> ~ Uncertain p.
Proof. rewrite <-uu_uncertain_spec. destruct (uu_uncertain p); naive_solver. Qed.

Lemma init_tall nd w h map umap thr :
  MapOk w h map umap -> w <= h ->
  (exists x y, InMap w h x y /\ w <= y /\ Uncertain (MapProb w map umap x y)) /\ uu_init nd w h map umap thr = Exn tt \/
  (forall x y, InMap w h x y -> w <= y -> ~ Uncertain (MapProb w map umap x y)) /\
  exists s, uu_init nd w h map umap thr = Ok s /\ init_state nd w h map umap thr s.
Proof.
  intros HM Hwh. pose proof HM as (Hw & Hh & _).
  destruct (setconf_ok w h map umap HM) as (g & u & Hsc & Hg & Hu).
  unfold uu_init. rewrite Hsc. cbn [obind fst snd]. unfold uu_hidden. rewrite hidden_loop_eq.
  assert (Hpr : forall c, c ∈ xxcells w -> u !! c = Some ((fun c => MapProb w map umap c.1 c.2) c)).
  { intros [x y] Hin. apply elem_of_xxcells in Hin. rewrite Hu. rewrite decide_True; [done|].
    destruct Hin. split; lia. }
  destruct (hid_loop_ok u (fun c => MapProb w map umap c.1 c.2) (xxcells w) ∅ 0) as (m & Hr & Ho & Hc & Hi & Hj).
  { apply NoDup_xxcells. }
  { exact Hpr. }
  rewrite Hr. cbn [obind fst snd].
  rewrite (ucount_perm _ _ _ (cells_split w h ltac:(lia))), ucount_app.
  change (ucount (fun c => uu_uncertain (MapProb w map umap c.1 c.2)) (xxcells w))
    with (ucount (isunc w map umap) (xxcells w)) in *.
  destruct (decide (ucount (isunc w map umap) (ucells_rest w h) = 0)) as [Hz|Hnz].
  - right. assert (Hrest : forall x y, InMap w h x y -> w <= y -> ~ Uncertain (MapProb w map umap x y)).
    { intros x y [Hx Hy] Hwy. apply uncertain_false. apply (proj1 (ucount_zero _ _) Hz (x, y)).
      apply elem_of_rest. lia. }
    split; [done|]. rewrite Hz.
    replace (0 + ucount (isunc w map umap) (xxcells w) =? ucount (isunc w map umap) (xxcells w) + 0) with true
      by (symmetry; apply Z.eqb_eq; lia).
    eexists. split; [reflexivity|].
    constructor; simpl; try done.
    + rewrite ucount_app. lia.
    + intros x y Hn. rewrite Ho by (rewrite elem_of_xxcells; done). apply lookup_empty.
    + intros x y Hin Hn. apply Hc; [apply elem_of_xxcells; done|]. apply uncertain_false. done.
    + intros x y Hin Hn. destruct (Hi (x, y)) as (i & Hmi & Hb).
      * apply elem_of_xxcells; done.
      * apply uu_uncertain_spec. done.
      * exists i. split; [done|]. lia.
    + intros x y x' y' i H1 H2 H3 H4 H5 H6. apply (Hj (x, y) (x', y') i); try done.
      * apply elem_of_xxcells; done.
      * apply elem_of_xxcells; done.
      * apply uu_uncertain_spec. done.
      * apply uu_uncertain_spec. done.
    + intros i Hi'. destruct (hid_loop_surj _ _ _ _ _ _ _ (NoDup_xxcells w) Hpr Hr i) as ([x y] & Hin & Hun & Hm); [lia|].
      exists x, y. split; [apply elem_of_xxcells; done|]. split; [apply uu_uncertain_spec; done|]. done.
  - left. split.
    + destruct (decide (Exists (fun c => isunc w map umap c = true) (ucells_rest w h))) as [He|Hne].
      * apply Exists_exists in He as ([x y] & Hin & Hp). apply elem_of_rest in Hin. exists x, y.
        split; [split; lia|]. split; [lia|]. apply uu_uncertain_spec. done.
      * exfalso. apply Hnz. apply ucount_zero. intros c Hc'. destruct (isunc w map umap c) eqn:E; [|done].
        exfalso. apply Hne. apply Exists_exists. eauto.
    + replace (0 + ucount (isunc w map umap) (xxcells w) =?
               ucount (isunc w map umap) (xxcells w) + ucount (isunc w map umap) (ucells_rest w h)) with false; [done|].
      symmetry. apply Z.eqb_neq. lia.
Qed.

Lemma init_wide nd w h map umap thr :
  MapOk w h map umap -> h < w -> uu_init nd w h map umap thr = UB.
Proof.
  intros HM Hwh. pose proof HM as (Hw & Hh & _).
  destruct (setconf_ok w h map umap HM) as (g & u & Hsc & Hg & Hu).
  unfold uu_init. rewrite Hsc. cbn [obind fst snd]. unfold uu_hidden. rewrite hidden_loop_eq.
  rewrite (hid_loop_UB u (xxcells w) _ 0 h); [done| |].
  - apply elem_of_xxcells. split; lia.
  - rewrite Hu. rewrite decide_False; [done|]. intros [? ?]. lia.
Qed.
