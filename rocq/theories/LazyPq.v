(** libstdc++'s push_heap and pop_heap as used by std::priority_queue: the content, and the order as long as the values do not change. *)
From Coq Require Import ZifyBool ZifyNat.
From Verif Require Import Base KeyModel HeapModel AngleModel AraModel LazyModel.
Local Open Scope nat_scope.

Lemma ins_perm (l : list lelem) i x y : l !! i = Some y -> y :: <[i := x]> l ≡ₚ x :: l.
Proof.
  intros Hi. assert (i < length l) as Hl by by apply lookup_lt_Some in Hi.
  rewrite (insert_take_drop l i x Hl). rewrite <- (take_drop_middle l i y Hi) at 3.
  rewrite <- !Permutation_middle. apply perm_swap.
Qed.
Lemma swap_perm (l : list lelem) i j x b : l !! j = Some b -> i < length l -> i <> j -> <[j := x]> (<[i := b]> l) ≡ₚ <[i := x]> l.
Proof.
  intros Hj Hi Hn.
  assert (b :: <[j := x]> (<[i := b]> l) ≡ₚ x :: <[i := b]> l) as H1.
  { apply ins_perm. by rewrite list_lookup_insert_ne. }
  assert (x :: <[i := b]> (<[i := x]> l) ≡ₚ b :: <[i := x]> l) as H2.
  { apply ins_perm. by apply list_lookup_insert. }
  rewrite list_insert_insert in H2. rewrite H2 in H1. by apply Permutation_cons_inv in H1.
Qed.

Section pq.
Context (val : lelem -> Z).
Definition hord (l : list lelem) : Prop :=
  forall i x y, 0 < i -> l !! ((i - 1) / 2) = Some x -> l !! i = Some y -> (val x <= val y)%Z.

Lemma hord_root l i x y : hord l -> l !! 0 = Some x -> l !! i = Some y -> (val x <= val y)%Z.
Proof.
  intros Ho H0. revert y. induction (lt_wf i) as [i _ IH]. intros y Hy.
  destruct (decide (i = 0)) as [->|Hn]; [rewrite H0 in Hy; injection Hy as ->; lia|].
  assert ((i - 1) / 2 < i) as Hlt by (apply Nat.div_lt_upper_bound; lia).
  destruct (lookup_lt_is_Some_2 l ((i - 1) / 2)) as [p Hp]; [apply lookup_lt_Some in Hy; lia|].
  pose proof (IH _ Hlt p Hp). pose proof (Ho i p y ltac:(lia) Hp Hy). lia.
Qed.

Lemma pq_up_len f : forall l hole x, length (pq_up val f l hole x) = length l.
Proof.
  induction f as [|f IH]; intros l hole x; cbn [pq_up]; [by rewrite insert_length|].
  destruct (0 <? hole); [|by rewrite insert_length].
  destruct (l !! ((hole - 1) / 2)) as [p|]; [|done]. destruct (val p >? val x)%Z; [rewrite IH|]; by rewrite insert_length.
Qed.
Lemma pq_up_spec f : forall l hole x, hole < length l -> hole <= f ->
  (pq_up val f l hole x ≡ₚ <[hole := x]> l) /\
  ((forall i a b, 0 < i -> i <> hole -> <[hole := x]> l !! ((i - 1) / 2) = Some a -> <[hole := x]> l !! i = Some b -> (val a <= val b)%Z) ->
   (forall i a b, 0 < hole -> 0 < i -> (i - 1) / 2 = hole -> l !! ((hole - 1) / 2) = Some a -> l !! i = Some b -> (val a <= val b)%Z) ->
   hord (pq_up val f l hole x)).
Proof.
  induction f as [|f IH]; intros l hole x Hh Hf; cbn [pq_up].
  { assert (hole = 0) as -> by lia. split; [done|]. intros H1 _ i a b Hi. apply H1; lia. }
  destruct (0 <? hole) eqn:E0.
  2:{ assert (hole = 0) as -> by lia. split; [done|]. intros H1 _ i a b Hi. apply H1; lia. }
  set (par := (hole - 1) / 2).
  assert (par < hole) as Hpar by (unfold par; apply Nat.div_lt_upper_bound; lia).
  destruct (lookup_lt_is_Some_2 l par) as [p Hp]; [lia|]. rewrite Hp.
  destruct (val p >? val x)%Z eqn:Ev.
  - destruct (IH (<[hole := p]> l) par x) as [P1 P2]; [rewrite insert_length; lia|lia|]. split.
    + rewrite P1. apply swap_perm; [done|lia|lia].
    + intros H1 H2. apply P2.
      * intros i a b Hi Hip Ha Hb.
        destruct (decide (i = hole)) as [->|Hih].
        { fold par in Ha. rewrite list_lookup_insert in Ha by (rewrite insert_length; lia). injection Ha as <-.
          rewrite list_lookup_insert_ne in Hb by lia. rewrite list_lookup_insert in Hb by lia. injection Hb as <-. lia. }
        rewrite !list_lookup_insert_ne in Hb by lia.
        destruct (decide ((i - 1) / 2 = par)) as [Hpi|Hpi].
        { rewrite Hpi, list_lookup_insert in Ha by (rewrite insert_length; lia). injection Ha as <-.
          pose proof (H1 i p b Hi Hih) as H3. rewrite Hpi in H3. rewrite !list_lookup_insert_ne in H3 by lia. specialize (H3 Hp Hb). lia. }
        rewrite list_lookup_insert_ne in Ha by lia.
        destruct (decide ((i - 1) / 2 = hole)) as [Hpi2|Hpi2].
        { rewrite Hpi2, list_lookup_insert in Ha by lia. injection Ha as <-. by apply (H2 i p b); try lia. }
        rewrite list_lookup_insert_ne in Ha by lia.
        apply (H1 i a b Hi Hih); by rewrite list_lookup_insert_ne by lia.
      * intros i a b Hp0 Hi Hpi Ha Hb.
        assert ((par - 1) / 2 < par) by (apply Nat.div_lt_upper_bound; lia).
        rewrite list_lookup_insert_ne in Ha by lia.
        assert (val a <= val p)%Z as Hap.
        { apply (H1 par a p Hp0 ltac:(lia)); rewrite list_lookup_insert_ne by lia; done. }
        destruct (decide (i = hole)) as [->|Hih]; [rewrite list_lookup_insert in Hb by lia; injection Hb as <-; lia|].
        rewrite list_lookup_insert_ne in Hb by lia.
        assert (val p <= val b)%Z; [|lia].
        apply (H1 i p b Hi Hih); [rewrite Hpi|]; rewrite list_lookup_insert_ne by lia; done.
  - split; [done|]. intros H1 _ i a b Hi Ha Hb. destruct (decide (i = hole)) as [->|Hn]; [|by eapply H1].
    fold par in Ha. rewrite list_lookup_insert_ne in Ha by lia. rewrite list_lookup_insert in Hb by lia. injection Hb as <-.
    assert (a = p) as -> by congruence. lia.
Qed.

Lemma pq_push_perm l x : pq_push val l x ≡ₚ x :: l.
Proof.
  unfold pq_push. destruct (pq_up_spec (length l) (l ++ [x]) (length l) x) as [P _]; [rewrite app_length; cbn; lia|lia|].
  rewrite P. rewrite <- (Nat.add_0_r (length l)), insert_app_r. cbn. by rewrite <- Permutation_cons_append.
Qed.
Lemma pq_push_hord l x : hord l -> hord (pq_push val l x).
Proof.
  intros Ho. unfold pq_push. destruct (pq_up_spec (length l) (l ++ [x]) (length l) x) as [_ P]; [rewrite app_length; cbn; lia|lia|].
  assert (<[length l := x]> (l ++ [x]) = l ++ [x]) as El.
  { rewrite <- (Nat.add_0_r (length l)), insert_app_r. done. }
  apply P.
  - rewrite El. intros i a b Hi Hn Ha Hb. assert (i < length (l ++ [x])) as Hl by by apply lookup_lt_Some in Hb.
    rewrite app_length in Hl. cbn in Hl. assert ((i - 1) / 2 < i) by (apply Nat.div_lt_upper_bound; lia).
    rewrite lookup_app_l in Ha by lia. rewrite lookup_app_l in Hb by lia. by eapply Ho.
  - intros i a b H0 Hi Hp Ha Hb. apply lookup_lt_Some in Hb. rewrite app_length in Hb. cbn in Hb.
    assert ((i - 1) / 2 < i) by (apply Nat.div_lt_upper_bound; lia). lia.
Qed.

Definition dord (l : list lelem) (hole : nat) : Prop :=
  (forall i a b, 0 < i -> i <> hole -> (i - 1) / 2 <> hole -> l !! ((i - 1) / 2) = Some a -> l !! i = Some b -> (val a <= val b)%Z) /\
  (forall i a b, 0 < hole -> 0 < i -> (i - 1) / 2 = hole -> l !! ((hole - 1) / 2) = Some a -> l !! i = Some b -> (val a <= val b)%Z).
(** The hole moves to child [j] whose sibling, if any, is not better. *)
Lemma dord_step l hole j b : dord l hole -> hole < length l -> l !! j = Some b -> 0 < j -> (j - 1) / 2 = hole ->
  (forall i a, 0 < i -> (i - 1) / 2 = hole -> l !! i = Some a -> (val b <= val a)%Z) -> dord (<[hole := b]> l) j.
Proof.
  intros [D1 D2] Hh Hj Hj0 Hjp Hs. assert ((j - 1) / 2 < j) by (apply Nat.div_lt_upper_bound; lia). split.
  - intros i a c Hi Hij Hpj Ha Hc. destruct (decide (i = hole)) as [->|Hih].
    + rewrite list_lookup_insert in Hc by lia. injection Hc as <-.
      assert ((hole - 1) / 2 < hole) by (apply Nat.div_lt_upper_bound; lia).
      rewrite list_lookup_insert_ne in Ha by lia. by apply (D2 j a b).
    + rewrite list_lookup_insert_ne in Hc by lia. destruct (decide ((i - 1) / 2 = hole)) as [Hp|Hp].
      * rewrite Hp, list_lookup_insert in Ha by lia. injection Ha as <-. by apply (Hs i c).
      * rewrite list_lookup_insert_ne in Ha by lia. by apply (D1 i a c).
  - intros i a c _ Hi Hp Ha Hc. rewrite Hjp, list_lookup_insert in Ha by lia. injection Ha as <-.
    assert ((i - 1) / 2 < i) by (apply Nat.div_lt_upper_bound; lia).
    rewrite list_lookup_insert_ne in Hc by lia. apply (D1 i b c Hi); [lia|lia|by rewrite Hp|done].
Qed.
Lemma child_cases i hole : 0 < i -> (i - 1) / 2 = hole -> i = 2 * hole + 1 \/ i = 2 * hole + 2.
Proof. intros Hi Hp. pose proof (Nat.div_mod_eq (i - 1) 2). pose proof (Nat.mod_upper_bound (i - 1) 2). lia. Qed.

Lemma pq_down_spec f x : forall l hole, hole < length l -> length l <= f + hole ->
  let r := pq_down val f l hole in
  length r.1 = length l /\ r.2 < length l /\ (length l - 1) / 2 <= r.2 /\ (<[r.2 := x]> r.1 ≡ₚ <[hole := x]> l) /\ (dord l hole -> dord r.1 r.2).
Proof.
  induction f as [|f IH]; intros l hole Hh Hf; cbn [pq_down]; [lia|].
  destruct (hole <? (length l - 1) / 2) eqn:E0.
  2:{ cbn. split_and!; try done. lia. }
  assert (2 * hole + 2 < length l) as Hlen.
  { pose proof (Nat.div_mod_eq (length l - 1) 2). pose proof (Nat.mod_upper_bound (length l - 1) 2). lia. }
  destruct (lookup_lt_is_Some_2 l (2 * (hole + 1))) as [a Ha]; [lia|].
  destruct (lookup_lt_is_Some_2 l (2 * (hole + 1) - 1)) as [b Hb]; [lia|]. rewrite Ha, Hb.
  assert ((2 * (hole + 1) - 1) / 2 = hole) as Hp1.
  { symmetry. apply Nat.div_unique with 1; lia. }
  assert ((2 * (hole + 1) - 1 - 1) / 2 = hole) as Hp2.
  { symmetry. apply Nat.div_unique with 0; lia. }
  destruct (val a >? val b)%Z eqn:Ev.
  - destruct (IH (<[hole := b]> l) (2 * (hole + 1) - 1)) as (A1&A2&A3&A4&A5); [rewrite insert_length; lia..|].
    rewrite insert_length in A1, A2, A3. split_and!; try done.
    + rewrite A4. apply swap_perm; [done|lia|lia].
    + intros D. apply A5. eapply dord_step; try done; [lia|].
      intros i c Hi Hp Hc. destruct (child_cases i hole Hi Hp) as [->| ->].
      * replace (2 * hole + 1) with (2 * (hole + 1) - 1) in Hc by lia. assert (c = b) as -> by congruence. lia.
      * replace (2 * hole + 2) with (2 * (hole + 1)) in Hc by lia. assert (c = a) as -> by congruence. lia.
  - destruct (IH (<[hole := a]> l) (2 * (hole + 1))) as (A1&A2&A3&A4&A5); [rewrite insert_length; lia..|].
    rewrite insert_length in A1, A2, A3. split_and!; try done.
    + rewrite A4. apply swap_perm; [done|lia|lia].
    + intros D. apply A5. eapply dord_step; try done; [lia|].
      intros i c Hi Hp Hc. destruct (child_cases i hole Hi Hp) as [->| ->].
      * replace (2 * hole + 1) with (2 * (hole + 1) - 1) in Hc by lia. assert (c = b) as -> by congruence. lia.
      * replace (2 * hole + 2) with (2 * (hole + 1)) in Hc by lia. assert (c = a) as -> by congruence. lia.
Qed.
(** A hole without children. *)
Lemma up_leaf l hole x f : hole < length l -> hole <= f -> length l <= 2 * hole + 1 -> 
  (pq_up val f l hole x ≡ₚ <[hole := x]> l) /\ (dord l hole -> hord (pq_up val f l hole x)).
Proof.
  intros Hh Hf Hleaf. destruct (pq_up_spec f l hole x Hh Hf) as [P1 P2]. split; [done|]. intros [D1 D2]. apply P2.
  - intros i a b Hi Hn Ha Hb. rewrite list_lookup_insert_ne in Hb by lia.
    destruct (decide ((i - 1) / 2 = hole)) as [Hp|Hp].
    + destruct (child_cases i hole Hi Hp) as [->| ->]; apply lookup_lt_Some in Hb; lia.
    + rewrite list_lookup_insert_ne in Ha by lia. by apply (D1 i a b).
  - intros i a b H0 Hi Hp Ha Hb. destruct (child_cases i hole Hi Hp) as [->| ->]; apply lookup_lt_Some in Hb; lia.
Qed.
Lemma pq_adjust_spec l x : l <> [] ->
  (pq_adjust val l x ≡ₚ <[0 := x]> l) /\ (dord l 0 -> hord (pq_adjust val l x)).
Proof.
  intros Hl. unfold pq_adjust. assert (0 < length l) as Hl0 by (destruct l; [done|cbn; lia]).
  destruct (pq_down_spec (length l) x l 0) as (A1&A2&A3&A4&A5); [lia..|].
  set (r := pq_down val (length l) l 0) in *. 
  destruct (Nat.even (length l) && (r.2 =? (length l - 2) / 2)) eqn:Ec.
  - apply andb_true_iff in Ec as [Ee Er]. apply Nat.even_spec in Ee as [k Hk]. rewrite Hk in Er.
    assert ((2 * k - 2) / 2 = k - 1) as Hd. { symmetry. apply Nat.div_unique with 0; lia. }
    assert (r.2 = k - 1) as Er2 by lia.
    destruct (lookup_lt_is_Some_2 r.1 (2 * (r.2 + 1) - 1)) as [b Hb]; [lia|]. rewrite Hb.
    assert ((2 * (r.2 + 1) - 1 - 1) / 2 = r.2) as Hp by (symmetry; apply Nat.div_unique with 0; lia).
    destruct (up_leaf (<[r.2 := b]> r.1) (2 * (r.2 + 1) - 1) x (length l)) as [P1 P2]; [rewrite ?insert_length; lia..|].
    split.
    + rewrite P1, <- A4. apply swap_perm; [done|lia|lia].
    + intros D. apply P2. apply dord_step; try done; try lia; [by apply A5|].
      intros i a Hi Hpi Ha. destruct (child_cases i r.2 Hi Hpi) as [->| ->].
      * replace (2 * r.2 + 1) with (2 * (r.2 + 1) - 1) in Ha by lia. assert (a = b) as -> by congruence. lia.
      * apply lookup_lt_Some in Ha. lia.
  - assert (length l <= 2 * r.2 + 1) as Hleaf.
    { apply andb_false_iff in Ec. pose proof (Nat.div_mod_eq (length l - 1) 2). pose proof (Nat.mod_upper_bound (length l - 1) 2).
      destruct (Nat.even (length l)) eqn:Ee.
      - apply Nat.even_spec in Ee as [k Hk]. destruct Ec as [[=]|Ec].
        assert ((length l - 2) / 2 = k - 1) as Hd by (symmetry; apply Nat.div_unique with 0; lia). lia.
      - assert (Nat.odd (length l) = true) as Eo by (by rewrite <- Nat.negb_even, Ee). apply Nat.odd_spec in Eo as [k Hk]. lia. }
    destruct (up_leaf r.1 r.2 x (length l)) as [P1 P2]; [lia..|]. split; [by rewrite P1|auto].
Qed.
Lemma pq_pop_spec y l : (y :: pq_pop val (y :: l) ≡ₚ y :: l) /\ (hord (y :: l) -> hord (pq_pop val (y :: l))).
Proof.
  unfold pq_pop. cbn [length]. destruct (S (length l) - 1 =? 0) eqn:E0.
  { destruct l; [|cbn in E0; lia]. split; [done|]. intros _ i a b _ Ha. by rewrite lookup_nil in Ha. }
  replace (S (length l) - 1) with (length l) in * by lia.
  destruct (lookup_lt_is_Some_2 (y :: l) (length l)) as [x Hx]; [cbn; lia|]. rewrite Hx.
  assert (take (length l) (y :: l) <> []) as Hne.
  { intros Ht. apply (f_equal length) in Ht. rewrite take_length in Ht. cbn in Ht. lia. }
  destruct (pq_adjust_spec (take (length l) (y :: l)) x Hne) as [P1 P2].
  assert (take (length l) (y :: l) ++ [x] = y :: l) as El.
  { rewrite <- (take_S_r (y :: l) (length l) x Hx). apply take_ge. cbn. lia. }
  split.
  - rewrite P1. assert (take (length l) (y :: l) !! 0 = Some y) as H0 by (rewrite lookup_take by lia; done).
    rewrite (ins_perm _ 0 x y H0). rewrite <- El at 2. by rewrite <- Permutation_cons_append.
  - intros Ho. apply P2. split; [|lia]. intros i a b Hi _ _ Ha Hb.
    assert (i < length (take (length l) (y :: l))) as Hlt by by apply lookup_lt_Some in Hb.
    rewrite take_length in Hlt. assert ((i - 1) / 2 < i) by (apply Nat.div_lt_upper_bound; lia).
    rewrite lookup_take in Ha by lia. rewrite lookup_take in Hb by lia. by apply (Ho i a b).
Qed.
End pq.
Lemma hord_ext (f g : lelem -> Z) l : (forall x, x ∈ l -> f x = g x) -> hord f l -> hord g l.
Proof.
  intros He Ho i x y Hi Hx Hy. rewrite <- (He x), <- (He y) by (by eapply elem_of_list_lookup_2). by apply (Ho i x y).
Qed.
