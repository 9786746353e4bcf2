From Verif Require Import Base KeyModel KeyProofs HeapModel.
From Coq Require Import ZifyBool ZifyNat.
Ltac Zify.zify_post_hook ::= Z.div_mod_to_equations.

Record keylaws {K} (ops : keyops K) : Prop := {
  kl_irrefl : forall a, klt ops a a = false;
  kl_trans : forall a b c, klt ops a b = true -> klt ops b c = true -> klt ops a c = true;
  kl_negtrans : forall a b c, klt ops a c = true -> klt ops a b = true \/ klt ops b c = true;
  kl_gt : forall a b, kgt ops a b = klt ops b a;
  kl_ne : forall a b, kne ops a b = false <-> a = b
}.

Lemma ckeylaws : keylaws ckeyops.
Proof.
  split; simpl; [apply key_lt_irrefl | apply key_lt_trans | apply key_lt_negtrans
                | apply key_gt_lt |].
  intros a b. unfold key_ne. rewrite <- key_eq_iff. destruct (key_eq a b); simpl; intuition congruence.
Qed.
Lemma intlaws : keylaws intops.
Proof. split; simpl; lia. Qed.

Section proofs.
Context {K : Type} (ops : keyops K) (L : keylaws ops).
Notation heap := (heap K).

Definition kle (a b : K) : Prop := klt ops b a = false.
Lemma kle_refl a : kle a a.
Proof. apply (kl_irrefl _ L). Qed.
Lemma kle_trans a b c : kle a b -> kle b c -> kle a c.
Proof.
  unfold kle; intros Hab Hbc. destruct (klt ops c a) eqn:E; [|done].
  destruct (kl_negtrans _ L _ b _ E); congruence.
Qed.
Lemma klt_kle a b : klt ops a b = true -> kle a b.
Proof.
  unfold kle; intros H. destruct (klt ops b a) eqn:E; [|done].
  pose proof (kl_trans _ L _ _ _ H E) as H2. rewrite (kl_irrefl _ L) in H2. done.
Qed.

(** [x] is a state exempt from the "not inside => heapindex = 0" clause (used in the middle
    of deleteheap only). *)
Definition repx (x : option nat) (h : heap) (m : gmap nat K) : Prop :=
  (Z.of_nat (cur h) < alloc h)%Z /\
  (Z.of_nat (cur h) <= HEAPSIZE - 1)%Z /\
  (forall i, 1 <= i <= cur h -> exists s k, arr h !! i = Some (s, k) /\ m !! s = Some k /\ idxof h s = i) /\
  (forall s k, m !! s = Some k -> 1 <= idxof h s <= cur h /\ arr h !! (idxof h s) = Some (s, k)) /\
  (forall s, m !! s = None -> x <> Some s -> idxof h s = 0).
Notation rep := (repx None).

Definition ord (l : nat) (h : heap) : Prop :=
  forall i a b, 2 <= i <= cur h -> l <= i / 2 ->
    arr h !! (i / 2) = Some a -> arr h !! i = Some b -> kle a.2 b.2.

(** Result of [wr]: also the "virtual" array in which the hole is filled with tmp. *)
Definition V (h : heap) (hole : nat) (tmp : nat * K) : heap :=
  mkHeap (cur h) (alloc h) (<[hole := tmp]> (arr h)) (<[tmp.1 := hole]> (idx h)).

Lemma idxof_V h hole tmp s : idxof (V h hole tmp) s = if decide (s = tmp.1) then hole else idxof h s.
Proof.
  unfold idxof, V; simpl. destruct (decide (s = tmp.1)) as [->|Hne].
  - by rewrite lookup_insert.
  - by rewrite lookup_insert_ne.
Qed.
Lemma idxof_set_idx (h : heap) t i s : idxof (set_idx h t i) s = if decide (s = t) then i else idxof h s.
Proof.
  unfold idxof, set_idx; simpl. destruct (decide (s = t)) as [->|Hne].
  - by rewrite lookup_insert.
  - by rewrite lookup_insert_ne.
Qed.

Lemma wr_ok (h : heap) i e : (Z.of_nat i < alloc h)%Z -> wr h i e = Ok (V h i e).
Proof.
  intros H. unfold wr, wr0. destruct (Z.ltb_spec (Z.of_nat i) (alloc h)); [|lia]. reflexivity.
Qed.
Lemma rd_ok (h : heap) i e : (Z.of_nat i < alloc h)%Z -> arr h !! i = Some e -> rd h i = Ok e.
Proof.
  intros H E. unfold rd. destruct (Z.ltb_spec (Z.of_nat i) (alloc h)); [|lia]. by rewrite E.
Qed.

Lemma rep_arr x h m i : repx x h m -> 1 <= i <= cur h ->
  exists s k, arr h !! i = Some (s, k) /\ m !! s = Some k /\ idxof h s = i.
Proof. intros (_&_&H&_). apply H. Qed.

Lemma rep_inj x h m i j s k k' : repx x h m -> 1 <= i <= cur h -> 1 <= j <= cur h ->
  arr h !! i = Some (s, k) -> arr h !! j = Some (s, k') -> i = j.
Proof.
  intros H Hi Hj Ei Ej.
  destruct (rep_arr x h m i H Hi) as (s1&k1&E1&_&I1).
  destruct (rep_arr x h m j H Hj) as (s2&k2&E2&_&I2). congruence.
Qed.

(** One loop step of percolation is a swap in the virtual array. *)
Lemma rep_swap x h m hole child tmp ec :
  repx x (V h hole tmp) m -> 1 <= hole <= cur h -> 1 <= child <= cur h -> hole <> child ->
  arr h !! child = Some ec ->
  repx x (V (V h hole ec) child tmp) m.
Proof.
  intros H Hh Hc Hne Ec. pose proof H as Hrep. destruct H as (A&B&C&D&E).
  destruct tmp as [ts tk], ec as [es ek].
  assert (ts <> es) as Hts.
  { intros ->. apply Hne. eapply (rep_inj x (V h hole (es,tk)) m hole child); eauto; simpl.
    - by rewrite lookup_insert.
    - by rewrite lookup_insert_ne. }
  split_and!; simpl in *; try done.
  - intros i Hi.
    destruct (decide (i = child)) as [->|Hic].
    { destruct (C hole Hh) as (s&k&E1&E2&E3). rewrite lookup_insert in E1. injection E1 as <- <-.
      exists ts, tk. split; [by rewrite lookup_insert|]. split; [done|]. rewrite idxof_V; simpl. by rewrite decide_True. }
    destruct (decide (i = hole)) as [->|Hih].
    { destruct (C child Hc) as (s&k&E1&E2&E3). rewrite lookup_insert_ne in E1 by done.
      rewrite Ec in E1. injection E1 as <- <-. exists es, ek. split; [rewrite lookup_insert_ne by done; by rewrite lookup_insert|].
      split; [done|]. rewrite !idxof_V; simpl. rewrite decide_False by done. by rewrite decide_True. }
    destruct (C i Hi) as (s&k&E1&E2&E3). rewrite lookup_insert_ne in E1 by done.
    exists s, k. split; [by rewrite !lookup_insert_ne by done|]. split; [done|].
    rewrite !idxof_V in *; simpl in *.
    destruct (decide (s = ts)) as [->|?]; [congruence|].
    destruct (decide (s = es)) as [->|?]; [|done].
    exfalso. apply Hic. eapply (rep_inj x (V h hole (ts,tk)) m i child); eauto; simpl;
      by rewrite lookup_insert_ne.
  - intros s k Hs. destruct (D s k Hs) as [D1 D2].
    rewrite !idxof_V in *; simpl in *.
    destruct (decide (s = ts)) as [->|Hs1].
    { split; [done|]. rewrite lookup_insert in D2. injection D2 as <-. by rewrite lookup_insert. }
    destruct (decide (s = es)) as [->|Hs2].
    { split; [done|]. rewrite lookup_insert_ne by done. rewrite lookup_insert.
      destruct (decide (idxof h es = hole)) as [Eq|Eq].
      { rewrite Eq, lookup_insert in D2. congruence. }
      rewrite lookup_insert_ne in D2 by done.
      assert (idxof h es = child) as Eq2.
      { eapply (rep_inj x (V h hole (ts,tk)) m); eauto; simpl; by rewrite lookup_insert_ne. }
      congruence. }
    split; [done|].
    destruct (decide (idxof h s = hole)) as [Eq|Eq].
    { rewrite Eq, lookup_insert in D2. congruence. }
    rewrite lookup_insert_ne in D2 by done.
    destruct (decide (idxof h s = child)) as [Eq2|Eq2]; [congruence|].
    by rewrite !lookup_insert_ne.
  - intros s Hs Hx. specialize (E s Hs Hx). rewrite !idxof_V in *; simpl in *.
    destruct (decide (s = ts)) as [->|Hs1]; [lia|].
    destruct (decide (s = es)) as [->|Hs2]; [|done].
    destruct (C child Hc) as (s'&k'&E1&E2&_). rewrite lookup_insert_ne in E1 by done. congruence.
Qed.

Lemma pdown_loop_spec x l m tmp f : forall h hole,
  repx x (V h hole tmp) m -> 1 <= hole <= cur h -> 1 <= l <= hole -> cur h < f + hole ->
  (forall i a b, 2 <= i <= cur h -> l <= i / 2 -> i / 2 <> hole ->
     arr (V h hole tmp) !! (i / 2) = Some a -> arr (V h hole tmp) !! i = Some b -> kle a.2 b.2) ->
  (forall i a b, l <= hole / 2 -> 2 <= i <= cur h -> i / 2 = hole ->
     arr (V h hole tmp) !! (hole / 2) = Some a -> arr (V h hole tmp) !! i = Some b -> kle a.2 b.2) ->
  exists h', pdown_loop ops f h hole tmp = Ok h' /\ repx x h' m /\ ord l h' /\
             cur h' = cur h /\ alloc h' = alloc h.
Proof.
  induction f as [|f IH]; intros h hole Hrep Hhole Hl Hf P1 P2; [lia|].
  cbn [pdown_loop].
  assert (Z.of_nat (cur h) < alloc h)%Z as Hal by (destruct Hrep; done).
  assert (wr h hole tmp = Ok (V h hole tmp)) as Hwr by (apply wr_ok; lia).
  destruct (Nat.leb_spec (2 * hole) (cur h)) as [Hle|Hgt].
  2:{ rewrite Hwr. eexists; split; [done|]. split; [done|]. split; [|done].
      intros i a b Hi Hli Ea Eb. simpl in Hi. apply (P1 i a b Hi Hli); [lia|done|done]. }
  remember (2 * hole) as c0 eqn:Hc0.
  assert (forall i, 1 <= i <= cur h -> i <> hole -> exists e, arr h !! i = Some e) as Hget.
  { intros i Hi Hne. destruct (rep_arr _ _ _ i Hrep Hi) as (s&k&E&_). simpl in E.
    rewrite lookup_insert_ne in E by done. eauto. }
  assert (exists child ec, (if (c0 =? cur h)%nat then Ok c0
         else do e1 <- rd h (c0 + 1); do e0 <- rd h c0;
              Ok (if klt ops e1.2 e0.2 then c0 + 1 else c0)) = Ok child /\
      arr h !! child = Some ec /\ child / 2 = hole /\ 2 <= child <= cur h /\ child <> hole /\
      (forall i e, 2 <= i <= cur h -> i / 2 = hole -> arr h !! i = Some e -> kle ec.2 e.2))
    as (child&ec&Hch&Ec&Hc2&Hcr&Hcne&Hmin).
  { destruct (Hget c0 ltac:(lia) ltac:(lia)) as [e0 E0].
    destruct (Nat.eqb_spec c0 (cur h)) as [Heq|Hneq].
    - exists c0, e0. split; [done|]; split; [done|]; split; [lia|]; split; [lia|]; split; [lia|].
      intros i e Hi Hi2 Ei. assert (i = c0) as -> by lia. rewrite E0 in Ei; injection Ei as <-.
      apply kle_refl.
    - destruct (Hget (c0 + 1) ltac:(lia) ltac:(lia)) as [e1 E1].
      rewrite (rd_ok h (c0+1) e1) by (done || lia). simpl.
      rewrite (rd_ok h c0 e0) by (done || lia). simpl.
      destruct (klt ops e1.2 e0.2) eqn:Elt.
      + exists (c0 + 1), e1. split; [done|]; split; [done|]; split; [lia|]; split; [lia|]; split; [lia|].
        intros i e Hi Hi2 Ei. assert (i = c0 \/ i = c0 + 1) as [->| ->] by lia.
        * rewrite E0 in Ei; injection Ei as <-. by apply klt_kle.
        * rewrite E1 in Ei; injection Ei as <-. apply kle_refl.
      + exists c0, e0. split; [done|]; split; [done|]; split; [lia|]; split; [lia|]; split; [lia|].
        intros i e Hi Hi2 Ei. assert (i = c0 \/ i = c0 + 1) as [->| ->] by lia.
        * rewrite E0 in Ei; injection Ei as <-. apply kle_refl.
        * rewrite E1 in Ei; injection Ei as <-. done. }
  rewrite Hch. cbn [obind]. rewrite (rd_ok h child ec) by (done || lia). cbn [obind].
  destruct (klt ops ec.2 tmp.2) eqn:Elt.
  - rewrite (wr_ok h hole ec) by lia. cbn [obind].
    destruct (IH (V h hole ec) child) as (h'&R1&R2&R3&R4&R5).
    + apply rep_swap; try done; lia.
    + simpl; lia.
    + lia.
    + simpl; lia.
    + simpl. intros i a b Hi Hli Hne.
      destruct (decide (i = child)) as [->|Hic].
      { rewrite lookup_insert. rewrite Hc2. rewrite lookup_insert_ne by done. rewrite lookup_insert.
        intros [= <-] [= <-]. by apply klt_kle. }
      destruct (decide (i = hole)) as [->|Hih].
      { rewrite (lookup_insert_ne _ child hole) by done. rewrite lookup_insert.
        rewrite lookup_insert_ne by lia. rewrite lookup_insert_ne by lia.
        intros Ea [= <-]. apply (P2 child); [done|done|done| |]; simpl.
        - rewrite lookup_insert_ne by lia. done.
        - rewrite lookup_insert_ne by lia. done. }
      rewrite (lookup_insert_ne _ child i) by done. rewrite (lookup_insert_ne _ hole i) by done.
      rewrite (lookup_insert_ne _ child (i/2)) by done.
      destruct (decide (i / 2 = hole)) as [E2|E2].
      { rewrite E2, lookup_insert. intros [= <-] Eb. by apply (Hmin i b). }
      rewrite lookup_insert_ne by done. intros Ea Eb.
      apply (P1 i a b Hi Hli E2); simpl; by rewrite lookup_insert_ne.
    + simpl. intros i a b Hl2 Hi Hi2. rewrite Hc2.
      rewrite (lookup_insert_ne _ child hole) by done. rewrite lookup_insert.
      rewrite (lookup_insert_ne _ child i) by lia. rewrite (lookup_insert_ne _ hole i) by lia.
      intros [= <-] Eb.
      apply (P1 i); [lia|lia|lia| |]; simpl.
      * rewrite Hi2. by rewrite lookup_insert_ne.
      * by rewrite lookup_insert_ne by lia.
    + simpl in *. exists h'. split_and!; try done.
  - rewrite Hwr. eexists; split; [done|]. split; [done|]. split; [|done].
    intros i a b Hi Hli. simpl in Hi.
    destruct (decide (i / 2 = hole)) as [E2|E2].
    + simpl. rewrite E2, lookup_insert. rewrite lookup_insert_ne by lia.
      intros [= <-] Eb. eapply kle_trans; [exact Elt|]. by apply (Hmin i b).
    + intros Ea Eb. by apply (P1 i a b Hi Hli E2).
Qed.

Lemma pup_loop_spec x m tmp f : forall h hole,
  repx x (V h hole tmp) m -> 1 <= hole <= cur h -> hole < f ->
  (forall i a b, 2 <= i <= cur h -> i <> hole ->
     arr (V h hole tmp) !! (i / 2) = Some a -> arr (V h hole tmp) !! i = Some b -> kle a.2 b.2) ->
  (forall i a b, 2 <= hole -> 2 <= i <= cur h -> i / 2 = hole ->
     arr (V h hole tmp) !! (hole / 2) = Some a -> arr (V h hole tmp) !! i = Some b -> kle a.2 b.2) ->
  exists h', pup_loop ops f h hole tmp = Ok h' /\ repx x h' m /\ ord 1 h' /\
             cur h' = cur h /\ alloc h' = alloc h.
Proof.
  induction f as [|f IH]; intros h hole Hrep Hhole Hf P1 P2; [lia|].
  cbn [pup_loop].
  assert (Z.of_nat (cur h) < alloc h)%Z as Hal by (destruct Hrep; done).
  assert (wr h hole tmp = Ok (V h hole tmp)) as Hwr by (apply wr_ok; lia).
  destruct (Nat.ltb_spec 1 hole) as [Hlt|Hge].
  2:{ rewrite Hwr. eexists; split; [done|]. split; [done|]. split; [|done].
      intros i a b Hi Hli Ea Eb. simpl in Hi. apply (P1 i a b Hi); [lia|done|done]. }
  set (p := hole / 2) in *.
  assert (1 <= p < hole) as Hp by (subst p; lia).
  destruct (rep_arr _ _ _ p Hrep ltac:(simpl; lia)) as (ps&pk&Ep&_). simpl in Ep.
  rewrite lookup_insert_ne in Ep by lia.
  rewrite (rd_ok h p (ps,pk)) by (done || lia). cbn [obind]. simpl snd.
  destruct (klt ops tmp.2 pk) eqn:Elt.
  - rewrite (wr_ok h hole (ps,pk)) by lia. cbn [obind].
    destruct (IH (V h hole (ps,pk)) p) as (h'&R1&R2&R3&R4&R5).
    + apply rep_swap; try done; lia.
    + simpl; lia.
    + lia.
    + simpl. intros i a b Hi Hne.
      rewrite (lookup_insert_ne _ p i) by done.
      destruct (decide (i = hole)) as [->|Hih].
      { rewrite (lookup_insert _ hole).
        fold p. rewrite lookup_insert. intros [= <-] [= <-]. by apply klt_kle. }
      rewrite (lookup_insert_ne _ hole i) by done.
      destruct (decide (i / 2 = p)) as [E2|E2].
      { rewrite E2, lookup_insert. intros [= <-] Eb.
        eapply kle_trans; [by apply klt_kle, Elt|].
        apply (P1 i (ps,pk) b Hi Hih); simpl.
        - rewrite E2. by rewrite lookup_insert_ne by lia.
        - by rewrite lookup_insert_ne. }
      rewrite (lookup_insert_ne _ p) by done.
      destruct (decide (i / 2 = hole)) as [E3|E3].
      { rewrite E3, lookup_insert. intros [= <-] Eb.
        apply (P2 i (ps,pk) b ltac:(lia) Hi E3); simpl; fold p.
        - by rewrite lookup_insert_ne by lia.
        - by rewrite lookup_insert_ne by lia. }
      rewrite lookup_insert_ne by done. intros Ea Eb.
      apply (P1 i a b Hi Hih); simpl; by rewrite lookup_insert_ne.
    + simpl. intros i a b H2 Hi Hi2.
      rewrite (lookup_insert_ne _ p (p/2)) by lia. rewrite (lookup_insert_ne _ hole (p/2)) by lia.
      rewrite (lookup_insert_ne _ p i) by lia.
      intros Ea.
      assert (kle a.2 pk) as Hap.
      { apply (P1 p a (ps,pk) ltac:(lia) ltac:(lia)); simpl; by rewrite lookup_insert_ne by lia. }
      destruct (decide (i = hole)) as [->|Hih].
      { rewrite lookup_insert. intros [= <-]. done. }
      rewrite lookup_insert_ne by done. intros Eb.
      eapply kle_trans; [exact Hap|].
      apply (P1 i (ps,pk) b Hi Hih); simpl.
      * rewrite Hi2. by rewrite lookup_insert_ne by lia.
      * by rewrite lookup_insert_ne.
    + simpl in *. exists h'. split_and!; try done.
  - rewrite Hwr. eexists; split; [done|]. split; [done|]. split; [|done].
    intros i a b Hi Hli. simpl in Hi.
    destruct (decide (i = hole)) as [->|E2].
    + simpl. fold p. rewrite lookup_insert. rewrite lookup_insert_ne by lia.
      rewrite Ep. intros [= <-] [= <-]. exact Elt.
    + intros Ea Eb. by apply (P1 i a b Hi E2).
Qed.

Lemma pdown_spec x l m tmp h hole :
  repx x (V h hole tmp) m -> 1 <= hole <= cur h -> 1 <= l <= hole ->
  (forall i a b, 2 <= i <= cur h -> l <= i / 2 -> i / 2 <> hole ->
     arr (V h hole tmp) !! (i / 2) = Some a -> arr (V h hole tmp) !! i = Some b -> kle a.2 b.2) ->
  (forall i a b, l <= hole / 2 -> 2 <= i <= cur h -> i / 2 = hole ->
     arr (V h hole tmp) !! (hole / 2) = Some a -> arr (V h hole tmp) !! i = Some b -> kle a.2 b.2) ->
  exists h', percolatedown ops h hole tmp = Ok h' /\ repx x h' m /\ ord l h' /\
             cur h' = cur h /\ alloc h' = alloc h.
Proof.
  intros H Hh Hl P1 P2. unfold percolatedown.
  destruct (Nat.eqb_spec (cur h) 0); [lia|]. eapply pdown_loop_spec; eauto; lia.
Qed.

Lemma pup_spec x m tmp h hole :
  repx x (V h hole tmp) m -> 1 <= hole <= cur h ->
  (forall i a b, 2 <= i <= cur h -> i <> hole ->
     arr (V h hole tmp) !! (i / 2) = Some a -> arr (V h hole tmp) !! i = Some b -> kle a.2 b.2) ->
  (forall i a b, 2 <= hole -> 2 <= i <= cur h -> i / 2 = hole ->
     arr (V h hole tmp) !! (hole / 2) = Some a -> arr (V h hole tmp) !! i = Some b -> kle a.2 b.2) ->
  exists h', percolateup ops h hole tmp = Ok h' /\ repx x h' m /\ ord 1 h' /\
             cur h' = cur h /\ alloc h' = alloc h.
Proof.
  intros H Hh P1 P2. unfold percolateup.
  destruct (Nat.eqb_spec (cur h) 0); [lia|]. eapply pup_loop_spec; eauto; lia.
Qed.

Lemma updown_spec x m tmp h hole :
  repx x (V h hole tmp) m -> 1 <= hole <= cur h ->
  (forall i a b, 2 <= i <= cur h -> i <> hole -> i / 2 <> hole ->
     arr (V h hole tmp) !! (i / 2) = Some a -> arr (V h hole tmp) !! i = Some b -> kle a.2 b.2) ->
  (forall i a b, 2 <= hole -> 2 <= i <= cur h -> i / 2 = hole ->
     arr (V h hole tmp) !! (hole / 2) = Some a -> arr (V h hole tmp) !! i = Some b -> kle a.2 b.2) ->
  exists h', percolateupordown ops h hole tmp = Ok h' /\ repx x h' m /\ ord 1 h' /\
             cur h' = cur h /\ alloc h' = alloc h.
Proof.
  intros H Hh P1 P2. unfold percolateupordown.
  destruct (Nat.eqb_spec (cur h) 0); [lia|].
  assert (forall (Hdn : hole <= 1 \/ exists ep, arr h !! (hole / 2) = Some ep /\ kle ep.2 tmp.2),
    exists h', percolatedown ops h hole tmp = Ok h' /\ repx x h' m /\ ord 1 h' /\
             cur h' = cur h /\ alloc h' = alloc h) as Hdown.
  { intros Hdn. apply pdown_spec; try done; try lia.
    - intros i a b Hi Hli Hne Ea Eb. destruct (decide (i = hole)) as [->|Hih].
      + destruct Hdn as [Hdn|(ep&Eep&Hle)]; [lia|]. simpl in Ea, Eb.
        rewrite lookup_insert in Eb. injection Eb as <-.
        rewrite lookup_insert_ne in Ea by lia. congruence.
      + by apply (P1 i).
    - intros i a b Hli Hi Hi2 Ea Eb. apply (P2 i); try done. lia. }
  destruct (Nat.ltb_spec 1 hole) as [Hlt|Hge]; [|apply Hdown; lia].
  destruct (rep_arr _ _ _ (hole/2) H ltac:(simpl; lia)) as (ps&pk&Ep&_). simpl in Ep.
  rewrite lookup_insert_ne in Ep by lia.
  assert (Z.of_nat (cur h) < alloc h)%Z as Hal by (destruct H; done).
  rewrite (rd_ok h (hole/2) (ps,pk)) by (done || lia). cbn [obind].
  rewrite (kl_gt _ L). simpl snd. destruct (klt ops tmp.2 pk) eqn:Elt.
  - apply pup_spec; try done.
    intros i a b Hi Hne Ea Eb. destruct (decide (i / 2 = hole)) as [E2|E2].
    + rewrite E2 in Ea. simpl in Ea. rewrite lookup_insert in Ea. injection Ea as <-.
      eapply kle_trans; [by apply klt_kle, Elt|].
      apply (P2 i (ps,pk) b); try done. simpl. by rewrite lookup_insert_ne by lia.
    + by apply (P1 i).
  - apply Hdown. right. exists (ps,pk). done.
Qed.

(** *** Consequences of the representation invariant *)
Lemma rep_lookup x h m s k : repx x h m -> m !! s = Some k ->
  1 <= idxof h s <= cur h /\ arr h !! (idxof h s) = Some (s, k).
Proof. intros (_&_&_&H&_). apply H. Qed.
Lemma rep_alloc x h m : repx x h m -> (Z.of_nat (cur h) < alloc h)%Z.
Proof. by intros (?&_). Qed.
Lemma rep_none h m s : rep h m -> (m !! s = None <-> idxof h s = 0).
Proof.
  intros H. split.
  - destruct H as (_&_&_&_&H). intros E. by apply H.
  - intros E. destruct (m !! s) eqn:Es; [|done]. apply (rep_lookup _ _ _ _ _ H) in Es. lia.
Qed.
Lemma rep_slot x h m i s k : repx x h m -> 1 <= i <= cur h -> arr h !! i = Some (s,k) ->
  m !! s = Some k /\ idxof h s = i.
Proof.
  intros H Hi E. destruct (rep_arr _ _ _ _ H Hi) as (s'&k'&E'&?&?). rewrite E in E'.
  injection E' as -> ->. done.
Qed.
Lemma rep_size x h m : repx x h m -> size m = cur h.
Proof.
  intros H. rewrite <- size_dom.
  set (f := fun i => match arr h !! i with Some e => e.1 | None => 0 end).
  assert (dom m = list_to_set (f <$> seq 1 (cur h)) :> gset nat) as ->.
  { apply set_eq. intros s. rewrite elem_of_dom, elem_of_list_to_set, elem_of_list_fmap. split.
    - intros [k Hk]. destruct (rep_lookup _ _ _ _ _ H Hk) as [H1 H2].
      exists (idxof h s). split; [unfold f; by rewrite H2|]. apply elem_of_seq. lia.
    - intros (i&->&Hi). apply elem_of_seq in Hi.
      destruct (rep_arr _ _ _ i H ltac:(lia)) as (s&k&E&E2&_). unfold f. rewrite E. simpl. eauto. }
  rewrite size_list_to_set.
  - by rewrite fmap_length, seq_length.
  - apply NoDup_alt. intros i j y Hi Hj.
    apply list_lookup_fmap_inv in Hi as (a&->&Ha). apply list_lookup_fmap_inv in Hj as (b&E&Hb).
    apply lookup_seq in Ha as [-> Ha]. apply lookup_seq in Hb as [-> Hb].
    destruct (rep_arr _ _ _ (1+i) H ltac:(lia)) as (s1&k1&E1&_).
    destruct (rep_arr _ _ _ (1+j) H ltac:(lia)) as (s2&k2&E2&_).
    unfold f in E. rewrite E1, E2 in E. simpl in E. subst s2.
    assert (1 + i = 1 + j); [|lia]. eapply rep_inj; eauto; lia.
Qed.

Lemma ord_min x h m : repx x h m -> ord 1 h -> forall i e r, 1 <= i <= cur h ->
  arr h !! i = Some e -> arr h !! 1 = Some r -> kle r.2 e.2.
Proof.
  intros H Ho i. induction (lt_wf i) as [i _ IH]. intros e r Hi Ei Er.
  destruct (decide (i = 1)) as [->|Hne].
  { rewrite Er in Ei. injection Ei as ->. apply kle_refl. }
  destruct (rep_arr _ _ _ (i/2) H ltac:(lia)) as (s&k&Ep&_).
  eapply kle_trans; [apply (IH (i/2) ltac:(lia) (s,k) r ltac:(lia) Ep Er)|].
  apply (Ho i (s,k) e); try done; lia.
Qed.

(** *** Operations *)
Lemma new_heap_rep n : (0 < n)%Z -> rep (@new_heap K n) ∅ /\ ord 1 (@new_heap K n).
Proof.
  intros Hn. split; [split_and!; simpl; try done; intros i Hi; lia|].
  intros i a b Hi. simpl in Hi. lia.
Qed.

Lemma sizecheck_spec x h m : repx x h m ->
  if (Z.of_nat (size m) =? HEAPSIZE - 1)%Z then sizecheck h = Exn h
  else exists h', sizecheck h = Ok h' /\ repx x h' m /\ cur h' = cur h /\ idx h' = idx h /\
       (Z.of_nat (cur h) + 1 < alloc h')%Z /\ (Z.of_nat (cur h) + 1 <= HEAPSIZE - 1)%Z /\
       (forall l, ord l h -> ord l h').
Proof.
  intros H. rewrite (rep_size _ _ _ H). unfold sizecheck, fullheap.
  destruct (Z.eqb_spec (Z.of_nat (cur h)) (HEAPSIZE - 1)) as [E|E]; [done|].
  pose proof H as H0. destruct H as (A&B&C&D&F).
  destruct (Z.eqb_spec (Z.of_nat (cur h)) (alloc h - 1)) as [E2|E2].
  2:{ exists h. split_and!; try done; lia. }
  eexists; split; [done|]. unfold growheap.
  assert (forall i, 1 <= i <= cur h -> filter (λ p : nat * (nat * K), p.1 ≤ cur h) (arr h) !! i = arr h !! i) as Hf.
  { intros i Hi. destruct (arr h !! i) as [e|] eqn:Ei.
    - apply map_filter_lookup_Some. split; [done|]. simpl. lia.
    - apply map_filter_lookup_None. by left. }
  set (a' := if (2 * alloc h >? HEAPSIZE)%Z then HEAPSIZE else (2 * alloc h)%Z).
  assert (Z.of_nat (cur h) + 1 < a')%Z as Ha.
  { subst a'. destruct (Z.gtb_spec (2 * alloc h) HEAPSIZE); lia. }
  split; [|split_and!; try done; simpl; try lia].
  - split_and!; simpl; try done; try lia.
    + intros i Hi. rewrite Hf by done. by apply C.
    + intros s k Hs. destruct (D s k Hs) as [D1 D2]. split; [exact D1|].
      unfold idxof in *. simpl. by rewrite Hf.
  - intros l Ho i p q Hi Hl. simpl in *. rewrite !Hf by lia. by apply Ho.
Qed.

Lemma rep_V_new h m s k : rep h m -> (Z.of_nat (cur h) + 1 < alloc h)%Z ->
  (Z.of_nat (cur h) + 1 <= HEAPSIZE - 1)%Z -> m !! s = None ->
  rep (V (set_cur h (S (cur h))) (S (cur h)) (s,k)) (<[s := k]> m).
Proof.
  intros H H1 H2 Hs. pose proof H as H0. destruct H as (A&B&C&D&F).
  split_and!; simpl; try lia.
  - intros i Hi. destruct (decide (i = S (cur h))) as [->|Hne].
    { exists s, k. rewrite !lookup_insert. rewrite idxof_V; simpl. by rewrite decide_True. }
    destruct (C i ltac:(lia)) as (s'&k'&E1&E2&E3). assert (s' <> s) by congruence.
    exists s', k'. rewrite !lookup_insert_ne by done. rewrite idxof_V; simpl.
    by rewrite decide_False.
  - intros s' k' Hs'. rewrite idxof_V; simpl. destruct (decide (s' = s)) as [->|Hne].
    { rewrite lookup_insert in Hs'. injection Hs' as ->. rewrite lookup_insert. split; [lia|done]. }
    rewrite lookup_insert_ne in Hs' by done. destruct (D s' k' Hs') as [D1 D2].
    change (idxof (set_cur h (S (cur h))) s') with (idxof h s').
    split; [lia|]. by rewrite lookup_insert_ne by lia.
  - intros s' Hs' _. apply lookup_insert_None in Hs' as [Hs' Hne]. rewrite idxof_V; simpl.
    rewrite decide_False by done. by apply F.
Qed.

Lemma rep_V_rekey x h m s k k' : repx x h m -> m !! s = Some k ->
  repx x (V h (idxof h s) (s,k')) (<[s := k']> m).
Proof.
  intros H Hs. pose proof H as H0. destruct H as (A&B&C&D&F).
  destruct (D s k Hs) as [Hr Hi0].
  split_and!; simpl; try done.
  - intros i Hi. destruct (decide (i = idxof h s)) as [->|Hne].
    { exists s, k'. rewrite !lookup_insert. rewrite idxof_V; simpl. by rewrite decide_True. }
    destruct (C i ltac:(lia)) as (s'&k1&E1&E2&E3). assert (s' <> s) by congruence.
    exists s', k1. rewrite !lookup_insert_ne by done. rewrite idxof_V; simpl.
    by rewrite decide_False.
  - intros s' k1 Hs'. rewrite idxof_V; simpl. destruct (decide (s' = s)) as [->|Hne].
    { rewrite lookup_insert in Hs'. injection Hs' as ->. rewrite lookup_insert. split; [lia|done]. }
    rewrite lookup_insert_ne in Hs' by done. destruct (D s' k1 Hs') as [D1 D2].
    split; [lia|]. rewrite lookup_insert_ne; [done|]. intros E.
    rewrite <- E in D2. congruence.
  - intros s' Hs' Hx. apply lookup_insert_None in Hs' as [Hs' Hne]. rewrite idxof_V; simpl.
    rewrite decide_False by done. by apply F.
Qed.

(** The last element moved into the slot of a removed state [s]. *)
Lemma rep_V_del h m s k ls lk : rep h m -> m !! s = Some k -> idxof h s < cur h ->
  arr h !! cur h = Some (ls, lk) ->
  repx (Some s) (V (set_cur h (cur h - 1)) (idxof h s) (ls,lk)) (delete s m).
Proof.
  intros H Hs Hlt Hl. pose proof H as H0. destruct H as (A&B&C&D&F).
  destruct (D s k Hs) as [Hr Hi0].
  destruct (rep_slot _ _ _ (cur h) _ _ H0 ltac:(lia) Hl) as [Hml Hil].
  assert (ls <> s) as Hne by (intros ->; lia).
  split_and!; simpl; try lia.
  - intros i Hi. destruct (decide (i = idxof h s)) as [->|Hni].
    { exists ls, lk. rewrite lookup_insert, lookup_delete_ne by done.
      rewrite idxof_V; simpl. by rewrite decide_True. }
    destruct (C i ltac:(lia)) as (s'&k1&E1&E2&E3).
    exists s', k1. rewrite lookup_insert_ne by done. rewrite lookup_delete_ne by congruence.
    rewrite idxof_V; simpl. rewrite decide_False by (intros ->; lia). done.
  - intros s' k1 Hs'. apply lookup_delete_Some in Hs' as [Hne' Hs'].
    rewrite idxof_V; simpl. destruct (decide (s' = ls)) as [->|Hn].
    { rewrite lookup_insert. split; [lia|]. congruence. }
    destruct (D s' k1 Hs') as [D1 D2].
    change (idxof (set_cur h (cur h - 1)) s') with (idxof h s').
    assert (idxof h s' <> cur h) by (intros E; rewrite E in D2; congruence).
    split; [lia|]. rewrite lookup_insert_ne; [done|]. intros E. rewrite <- E in D2. congruence.
  - intros s' Hs' Hx. assert (s' <> s) by congruence. rewrite lookup_delete_ne in Hs' by done.
    rewrite idxof_V; simpl. rewrite decide_False by congruence. by apply F.
Qed.

Lemma rep_unexempt h m s : repx (Some s) h m -> m !! s = None -> rep (set_idx h s 0) m.
Proof.
  intros (A&B&C&D&F) Hs. split_and!; simpl; try done.
  - intros i Hi. destruct (C i Hi) as (s'&k&E1&E2&E3). exists s', k. split_and!; try done.
    rewrite idxof_set_idx, decide_False by congruence. done.
  - intros s' k Hs'. rewrite idxof_set_idx, decide_False by congruence. by apply D.
  - intros s' Hs' _. rewrite idxof_set_idx. destruct (decide (s' = s)) as [->|?]; [done|].
    apply F; [done|congruence].
Qed.

Lemma rep_drop_last h m s k : rep h m -> m !! s = Some k -> idxof h s = cur h ->
  repx (Some s) (set_cur h (cur h - 1)) (delete s m).
Proof.
  intros H Hs Hi. pose proof H as H0. destruct H as (A&B&C&D&F).
  destruct (D s k Hs) as [Hr Hi0].
  split_and!; simpl; try lia.
  - intros i Hi1. destruct (C i ltac:(lia)) as (s'&k1&E1&E2&E3). exists s', k1.
    assert (s' <> s) by (intros ->; lia). by rewrite lookup_delete_ne.
  - intros s' k1 Hs'. apply lookup_delete_Some in Hs' as [Hne' Hs'].
    destruct (D s' k1 Hs') as [D1 D2]. change (idxof (set_cur h (cur h - 1)) s') with (idxof h s').
    assert (idxof h s' <> cur h) by (intros E; rewrite E in D2; rewrite Hi in Hi0; congruence).
    split; [lia|done].
  - intros s' Hs' Hx. assert (s' <> s) by congruence. rewrite lookup_delete_ne in Hs' by done. by apply F.
Qed.

Lemma insertheap_spec h m s k : rep h m -> ord 1 h ->
  m !! s = None -> (Z.of_nat (size m) <> HEAPSIZE - 1)%Z ->
  exists h', insertheap ops h s k = Ok h' /\ rep h' (<[s := k]> m) /\ ord 1 h'.
Proof.
  intros H Ho Hs Hsz. unfold insertheap. pose proof (sizecheck_spec _ _ _ H) as Hc.
  destruct (Z.eqb_spec (Z.of_nat (size m)) (HEAPSIZE - 1)) as [|_]; [done|].
  destruct Hc as (h1&->&H1&Hcur&Hidx&Ha&Hb&Hord). cbn [obind].
  assert (idxof h1 s = 0) as E by by apply (rep_none h1 m s H1). rewrite E. simpl (0 =? 0)%nat. cbn [obind].
  rewrite <- Hcur in *. specialize (Hord 1 Ho).
  destruct (pup_spec None (<[s:=k]> m) (s,k) (set_cur h1 (S (cur h1))) (S (cur h1)))
    as (h'&R1&R2&R3&_).
  - by apply rep_V_new.
  - simpl. lia.
  - simpl. intros i a b Hi Hne. rewrite !lookup_insert_ne by lia. apply Hord; lia.
  - simpl. intros i a b _ Hi Hi2. lia.
  - simpl. rewrite R1. eauto.
Qed.

Lemma insertheap_exn h m s k k0 : rep h m -> m !! s = Some k0 ->
  exists h', insertheap ops h s k = Exn h' /\ rep h' m /\ forall l, ord l h -> ord l h'.
Proof.
  intros H Hs. unfold insertheap. pose proof (sizecheck_spec _ _ _ H) as Hc.
  destruct (Z.eqb_spec (Z.of_nat (size m)) (HEAPSIZE - 1)) as [|_].
  { rewrite Hc. cbn [obind]. eauto. }
  destruct Hc as (h1&->&H1&Hcur&Hidx&Ha&Hb&Hord). cbn [obind].
  destruct (rep_lookup _ _ _ _ _ H1 Hs) as [Hi _].
  destruct (Nat.eqb_spec (idxof h1 s) 0); [lia|]. eauto.
Qed.

Lemma insertheap_full h m s k : rep h m -> (Z.of_nat (size m) = HEAPSIZE - 1)%Z ->
  insertheap ops h s k = Exn h.
Proof.
  intros H Hs. unfold insertheap. pose proof (sizecheck_spec _ _ _ H) as Hc.
  destruct (Z.eqb_spec (Z.of_nat (size m)) (HEAPSIZE - 1)); [|done].
  rewrite Hc. done.
Qed.

(** Changing the content of one slot of an ordered heap and percolating. *)
Lemma updown_from_ord x m h hole tmp :
  ord 1 h -> (forall i, 1 <= i <= cur h -> is_Some (arr h !! i)) ->
  repx x (V h hole tmp) m -> 1 <= hole <= cur h ->
  exists h', percolateupordown ops h hole tmp = Ok h' /\ repx x h' m /\ ord 1 h' /\
             cur h' = cur h /\ alloc h' = alloc h.
Proof.
  intros Ho Hall H Hh. apply updown_spec; try done; simpl.
  - intros i a b Hi Hne Hne2. rewrite !lookup_insert_ne by done. apply Ho; lia.
  - intros i a b H2 Hi Hi2. rewrite !lookup_insert_ne by lia. intros Ea Eb.
    destruct (Hall hole Hh) as [e Ee].
    eapply kle_trans; [apply (Ho hole a e); try done; lia|].
    apply (Ho i e b); try done; try lia. by rewrite Hi2.
Qed.

Lemma rep_all x h m : repx x h m -> forall i, 1 <= i <= cur h -> is_Some (arr h !! i).
Proof. intros H i Hi. destruct (rep_arr _ _ _ _ H Hi) as (s&k&E&_). eauto. Qed.

Lemma deleteheap_spec h m s k : rep h m -> ord 1 h -> m !! s = Some k ->
  exists h', deleteheap ops h s = Ok h' /\ rep h' (delete s m) /\ ord 1 h'.
Proof.
  intros H Ho Hs. unfold deleteheap. pose proof (rep_alloc _ _ _ H) as Hal.
  destruct (rep_lookup _ _ _ _ _ H Hs) as [Hi Hsi].
  destruct (Nat.eqb_spec (idxof h s) 0); [lia|].
  destruct (rep_arr _ _ _ (cur h) H ltac:(lia)) as (ls&lk&El&_).
  rewrite (rd_ok h (cur h) (ls,lk)) by (done || lia). cbn [obind].
  assert (ord 1 (set_cur h (cur h - 1))) as Ho'.
  { intros i a b Hi1 Hl. simpl in *. apply Ho; lia. }
  destruct (decide (idxof h s = cur h)) as [Eq|Ne].
  - pose proof (rep_drop_last h m s k H Hs Eq) as Hd.
    rewrite Eq in Hsi. rewrite El in Hsi. injection Hsi as -> ->.
    unfold percolateupordown. simpl cur.
    destruct (Nat.eqb_spec (cur h - 1) 0) as [E0|E0].
    { cbn [obind]. eexists; split; [done|]. split; [by apply rep_unexempt; [done|rewrite lookup_delete]|].
      intros i a b Hi1. simpl in Hi1. lia. }
    destruct (Nat.ltb_spec 1 (idxof h s)); [|lia].
    destruct (rep_arr _ _ _ (cur h / 2) H ltac:(lia)) as (ps&pk&Ep&_).
    rewrite Eq. rewrite (rd_ok (set_cur h (cur h - 1)) (cur h / 2) (ps,pk)) by (simpl; done || lia).
    cbn [obind]. rewrite (kl_gt _ L).
    assert (klt ops (s,k).2 (ps,pk).2 = false) as ->.
    { apply (Ho (cur h)); try done; lia. }
    unfold percolatedown. simpl cur. destruct (Nat.eqb_spec (cur h - 1) 0); [done|].
    cbn [pdown_loop]. simpl cur. destruct (Nat.leb_spec (2 * cur h) (cur h - 1)); [lia|].
    rewrite wr_ok by (simpl; lia). cbn [obind].
    eexists; split; [done|].
    split.
    + apply (rep_unexempt _ _ s); [|by rewrite lookup_delete].
      destruct Hd as (A&B&C&D&F). split_and!; simpl in *; try done.
      * intros i Hi1. destruct (C i Hi1) as (s'&k1&E1&E2&E3). exists s', k1.
        rewrite lookup_insert_ne by lia. apply lookup_delete_Some in E2 as E2'.
        rewrite idxof_V; simpl. rewrite decide_False by (intros ->; naive_solver). done.
      * intros s' k1 Hs'. pose proof (D s' k1 Hs') as [D1 D2]. apply lookup_delete_Some in Hs' as [Hne _].
        rewrite idxof_V; simpl. rewrite decide_False by congruence.
        split; [done|]. rewrite lookup_insert_ne by lia. done.
      * intros s' Hs' Hx. rewrite idxof_V; simpl. rewrite decide_False by congruence. by apply F.
    + intros i a b Hi1 Hl. simpl in *. rewrite !lookup_insert_ne by lia. apply Ho; lia.
  - destruct (updown_from_ord (Some s) (delete s m) (set_cur h (cur h - 1)) (idxof h s) (ls,lk))
      as (h'&R1&R2&R3&_).
    + done.
    + intros i Hi1. simpl in *. eapply rep_all; [exact H|lia].
    + eapply rep_V_del; eauto. lia.
    + simpl. lia.
    + rewrite R1. cbn [obind]. eexists; split; [done|]. split; [|done].
      apply rep_unexempt; [done|]. by rewrite lookup_delete.
Qed.

Lemma V_of_wr0 (h : heap) i s k k' : arr h !! i = Some (s,k) -> idxof h s = i ->
  (Z.of_nat i < alloc h)%Z -> (i <> 0) ->
  exists h1, wr0 h i (s,k') = Ok h1 /\ h1 = V h i (s,k').
Proof.
  intros E1 E2 Hal Hi. unfold wr0. destruct (Z.ltb_spec (Z.of_nat i) (alloc h)); [|lia].
  eexists; split; [done|]. unfold V. f_equal. simpl.
  symmetry. apply insert_id. unfold idxof in E2. destruct (idx h !! s); simpl in E2; [congruence|lia].
Qed.

Lemma updateheap_spec h m s k k' : rep h m -> ord 1 h -> m !! s = Some k ->
  exists h', updateheap ops h s k' = Ok h' /\ rep h' (<[s := k']> m) /\ ord 1 h'.
Proof.
  intros H Ho Hs. unfold updateheap. pose proof (rep_alloc _ _ _ H) as Hal.
  destruct (rep_lookup _ _ _ _ _ H Hs) as [Hi Hsi].
  destruct (Nat.eqb_spec (idxof h s) 0); [lia|].
  rewrite (rd_ok h (idxof h s) _ ltac:(lia) Hsi). cbn [obind]. simpl snd. simpl fst.
  destruct (kne ops k k') eqn:Ene.
  - destruct (V_of_wr0 h (idxof h s) s k k' Hsi eq_refl ltac:(lia) ltac:(lia)) as (h1&->&->).
    cbn [obind]. rewrite (rd_ok (V h (idxof h s) (s,k')) _ (s,k')) by (simpl; first [lia | by rewrite lookup_insert]).
    cbn [obind].
    destruct (updown_spec None (<[s:=k']> m) (s,k') (V h (idxof h s) (s,k')) (idxof h s)) as (h'&R1&R2&R3&_).
    + assert (V (V h (idxof h s) (s,k')) (idxof h s) (s,k') = V h (idxof h s) (s,k')) as ->.
      { unfold V; simpl. by rewrite !insert_insert. }
      by eapply rep_V_rekey.
    + simpl. done.
    + simpl. intros i a b Hi1 Hne Hne2. rewrite !insert_insert, !lookup_insert_ne by done. apply Ho; lia.
    + simpl. intros i a b H2 Hi1 Hi2. rewrite !insert_insert, !lookup_insert_ne by lia. intros Ea Eb.
      eapply kle_trans; [apply (Ho (idxof h s) a (s,k)); try done; lia|].
      apply (Ho i (s,k) b); try done; try lia. by rewrite Hi2.
    + rewrite R1. eauto.
  - apply (kl_ne _ L) in Ene as <-. exists h. rewrite insert_id by done. done.
Qed.

Lemma getmin_spec h m : rep h m -> ord 1 h -> m <> ∅ ->
  exists s k, getminheap h = Ok (s,k) /\ getminkeyheap ops h = Ok k /\ m !! s = Some k /\
    (forall s' k', m !! s' = Some k' -> kle k k').
Proof.
  intros H Ho Hne. pose proof (rep_size _ _ _ H) as Hsz. pose proof (rep_alloc _ _ _ H) as Hal.
  assert (cur h <> 0) as Hc. { rewrite <- Hsz. by apply map_size_non_empty_iff. }
  unfold getminheap, getminkeyheap. destruct (Nat.eqb_spec (cur h) 0); [lia|].
  destruct (rep_arr _ _ _ 1 H ltac:(lia)) as (s&k&E&E2&_). exists s, k.
  rewrite (rd_ok h 1 (s,k)) by (done || lia). cbn [obind]. split_and!; try done.
  intros s' k' Hs'. destruct (rep_lookup _ _ _ _ _ H Hs') as [Hi Hs''].
  apply (ord_min _ _ _ H Ho _ _ _ Hi Hs'' E).
Qed.

Lemma rep_empty_cur h m : rep h m -> (m = ∅ <-> cur h = 0).
Proof. intros H. rewrite <- (rep_size _ _ _ H). symmetry. apply map_size_empty_iff. Qed.

Lemma deletemin_spec h m : rep h m -> ord 1 h -> m <> ∅ ->
  exists s k h', getminheap h = Ok (s,k) /\ deleteminheap ops h = Ok (s,h') /\ m !! s = Some k /\
    (forall s' k', m !! s' = Some k' -> kle k k') /\
    rep h' (delete s m) /\ ord 1 h'.
Proof.
  intros H Ho Hne. destruct (getmin_spec h m H Ho Hne) as (s&k&E1&E2&E3&E4).
  pose proof E1 as E1'. unfold getminheap in E1. unfold deleteminheap.
  destruct (Nat.eqb_spec (cur h) 0) as [|Hc]; [done|].
  exists s, k. rewrite E1. cbn [obind]. pose proof (rep_alloc _ _ _ H) as Hal.
  destruct (rep_arr _ _ _ 1 H ltac:(lia)) as (s1&k1&Es1&_&Ei1).
  rewrite (rd_ok h 1 (s1,k1)) in E1 by (done || lia). injection E1 as -> ->.
  destruct (rep_arr _ _ _ (cur h) H ltac:(lia)) as (ls&lk&El&_).
  simpl fst. rewrite (rd_ok (set_idx h s 0) (cur (set_idx h s 0)) (ls,lk)) by (simpl; done || lia).
  cbn [obind].
  assert (forall i, 1 < i <= cur h -> forall e, arr h !! i = Some e -> e.1 <> s) as Hother.
  { intros i Hi [es ek] Ee Heq. simpl in *. subst es. assert (i = 1); [|lia]. eapply rep_inj; eauto; lia. }
  destruct (decide (cur h = 1)) as [Eq|Ne].
  - unfold percolatedown. simpl cur. rewrite Eq. simpl (1 - 1 =? 0)%nat. cbn [obind].
    eexists. split; [done|]. split; [done|]. split; [done|]. split; [done|].
    split; [|intros i a b Hi; simpl in Hi; lia].
    pose proof (rep_drop_last h m s k H E3 ltac:(lia)) as Hd. rewrite Eq in Hd.
    apply (rep_unexempt _ _ s) in Hd; [|by rewrite lookup_delete]. exact Hd.
  - destruct (pdown_spec None 1 (delete s m) (ls,lk) (set_cur (set_idx h s 0) (cur (set_idx h s 0) - 1)) 1)
      as (h'&R1&R2&R3&_).
    + pose proof (rep_V_del h m s k ls lk H E3 ltac:(lia) El) as Hd.
      apply (rep_unexempt _ _ s) in Hd; [|by rewrite lookup_delete].
      rewrite Ei1 in Hd.
      assert (V (set_cur (set_idx h s 0) (cur (set_idx h s 0) - 1)) 1 (ls,lk) =
              set_idx (V (set_cur h (cur h - 1)) 1 (ls,lk)) s 0) as ->; [|done].
      unfold V, set_idx, set_cur; simpl. f_equal.
      assert (ls <> s). { apply (Hother (cur h) ltac:(lia) _ El). }
      by rewrite insert_commute by done.
    + simpl. lia.
    + lia.
    + simpl. intros i a b Hi Hl Hne2. rewrite !lookup_insert_ne by lia. apply Ho; lia.
    + simpl. intros i a b Hl. replace (1/2) with 0 in Hl by done. lia.
    + rewrite R1. cbn [obind]. eauto 10.
Qed.

Lemma makeheap_loop_spec m i : forall h, rep h m -> i <= cur h -> ord (S i) h ->
  exists h', makeheap_loop ops h i = Ok h' /\ rep h' m /\ ord 1 h' /\ cur h' = cur h.
Proof.
  induction i as [|i IH]; intros h H Hi Ho; cbn [makeheap_loop]; [eauto|].
  pose proof (rep_alloc _ _ _ H) as Hal.
  destruct (rep_arr _ _ _ (S i) H ltac:(lia)) as (s&k&E&Em&Ei).
  rewrite (rd_ok h (S i) (s,k)) by (done || lia). cbn [obind].
  assert (V h (S i) (s,k) = h) as HV.
  { unfold V. destruct h as [c a ar ix]; simpl in *. f_equal; apply insert_id; [done|].
    unfold idxof in Ei; simpl in Ei. destruct (ix !! s); simpl in Ei; congruence. }
  destruct (pdown_spec None (S i) m (s,k) h (S i)) as (h'&R1&R2&R3&R4&R5).
  - by rewrite HV.
  - lia.
  - lia.
  - rewrite HV. intros j a b Hj Hl Hne. apply Ho; lia.
  - intros j a b Hl. lia.
  - rewrite R1. cbn [obind]. destruct (IH h' R2 ltac:(lia) R3) as (h2&S1&S2&S3&S4).
    exists h2. split_and!; try done. lia.
Qed.
Lemma makeheap_spec h m : rep h m ->
  exists h', makeheap ops h = Ok h' /\ rep h' m /\ ord 1 h'.
Proof.
  intros H. unfold makeheap. destruct (makeheap_loop_spec m (cur h / 2) h H ltac:(lia)) as (h'&?&?&?&?).
  - intros i a b Hi Hl. lia.
  - eauto.
Qed.

Lemma insert_unsafe_spec h m s k : rep h m ->
  m !! s = None -> (Z.of_nat (size m) <> HEAPSIZE - 1)%Z ->
  exists h', insert_unsafe h s k = Ok h' /\ rep h' (<[s := k]> m).
Proof.
  intros H Hs Hsz. unfold insert_unsafe. pose proof (sizecheck_spec _ _ _ H) as Hc.
  destruct (Z.eqb_spec (Z.of_nat (size m)) (HEAPSIZE - 1)) as [|_]; [done|].
  destruct Hc as (h1&->&H1&Hcur&Hidx&Ha&Hb&_). cbn [obind].
  assert (idxof h1 s = 0) as E by by apply (rep_none h1 m s H1). rewrite E. simpl (0 =? 0)%nat. cbn [obind].
  rewrite <- Hcur in *. rewrite wr_ok by (simpl; lia). eexists; split; [done|]. by apply rep_V_new.
Qed.
Lemma insert_unsafe_exn h m s k k0 : rep h m -> m !! s = Some k0 ->
  exists h', insert_unsafe h s k = Exn h' /\ rep h' m /\ forall l, ord l h -> ord l h'.
Proof.
  intros H Hs. unfold insert_unsafe. pose proof (sizecheck_spec _ _ _ H) as Hc.
  destruct (Z.eqb_spec (Z.of_nat (size m)) (HEAPSIZE - 1)) as [|_].
  { rewrite Hc. cbn [obind]. eauto. }
  destruct Hc as (h1&->&H1&Hcur&Hidx&Ha&Hb&Hord). cbn [obind].
  destruct (rep_lookup _ _ _ _ _ H1 Hs) as [Hi _].
  destruct (Nat.eqb_spec (idxof h1 s) 0); [lia|]. eauto.
Qed.
Lemma insert_unsafe_full h m s k : rep h m -> (Z.of_nat (size m) = HEAPSIZE - 1)%Z ->
  insert_unsafe h s k = Exn h.
Proof.
  intros H Hs. unfold insert_unsafe. pose proof (sizecheck_spec _ _ _ H) as Hc.
  destruct (Z.eqb_spec (Z.of_nat (size m)) (HEAPSIZE - 1)); [|done].
  rewrite Hc. done.
Qed.

Lemma deleteheap_unsafe_spec h m s k : rep h m -> m !! s = Some k ->
  exists h', deleteheap_unsafe h s = Ok h' /\ rep h' (delete s m).
Proof.
  intros H Hs. unfold deleteheap_unsafe. pose proof (rep_alloc _ _ _ H) as Hal.
  destruct (rep_lookup _ _ _ _ _ H Hs) as [Hi Hsi].
  destruct (Nat.eqb_spec (idxof h s) 0); [lia|].
  destruct (rep_arr _ _ _ (cur h) H ltac:(lia)) as (ls&lk&El&_&Eli).
  rewrite (rd_ok h (cur h) (ls,lk)) by (done || lia). cbn [obind].
  unfold wr0. destruct (Z.ltb_spec (Z.of_nat (idxof h s)) (alloc h)); [|lia]. cbn [obind].
  match goal with |- context [rd ?h1 ?i] => rewrite (rd_ok h1 i (ls,lk)) end;
    [|simpl; lia|simpl; by rewrite lookup_insert].
  cbn [obind]. eexists; split; [done|]. simpl.
  destruct (decide (idxof h s = cur h)) as [Eq|Ne].
  - pose proof (rep_drop_last h m s k H Hs Eq) as Hd.
    apply (rep_unexempt _ _ s) in Hd; [|by rewrite lookup_delete].
    rewrite Eq in Hsi. rewrite El in Hsi. injection Hsi as -> ->.
    destruct Hd as (A&B&C&D&F). split_and!; simpl in *; try done.
    + intros i Hi1. destruct (C i Hi1) as (s'&k1&E1&E2&E3). exists s', k1.
      rewrite lookup_insert_ne by lia. apply lookup_delete_Some in E2 as E2'.
      rewrite !idxof_set_idx in *. destruct (decide (s' = s)); [naive_solver|]. done.
    + intros s' k1 Hs'. pose proof (D s' k1 Hs') as [D1 D2]. apply lookup_delete_Some in Hs' as [Hne _].
      rewrite !idxof_set_idx in *. rewrite !decide_False in * by congruence.
      split; [done|]. unfold idxof in *; simpl in *. rewrite lookup_insert_ne by lia. done.
    + intros s' Hs' Hx. pose proof (F s' Hs' Hx) as F1. rewrite !idxof_set_idx in *.
      destruct (decide (s' = s)); done.
  - pose proof (rep_V_del h m s k ls lk H Hs ltac:(lia) El) as Hd.
    apply (rep_unexempt _ _ s) in Hd; [|by rewrite lookup_delete]. exact Hd.
Qed.

Lemma updateheap_unsafe_spec h m s k k' : rep h m -> m !! s = Some k ->
  exists h', updateheap_unsafe ops h s k' = Ok h' /\ rep h' (<[s := k']> m).
Proof.
  intros H Hs. unfold updateheap_unsafe. pose proof (rep_alloc _ _ _ H) as Hal.
  destruct (rep_lookup _ _ _ _ _ H Hs) as [Hi Hsi].
  destruct (Nat.eqb_spec (idxof h s) 0); [lia|].
  rewrite (rd_ok h (idxof h s) _ ltac:(lia) Hsi). cbn [obind]. simpl snd. simpl fst.
  destruct (kne ops k k') eqn:Ene.
  - destruct (V_of_wr0 h (idxof h s) s k k' Hsi eq_refl ltac:(lia) ltac:(lia)) as (h1&->&->).
    eexists; split; [done|]. by eapply rep_V_rekey.
  - apply (kl_ne _ L) in Ene as <-. exists h. rewrite insert_id by done. done.
Qed.

Lemma clear_idx_spec n : forall (h : heap) i, (Z.of_nat (i + n) <= alloc h)%Z ->
  (forall j, i <= j < i + n -> is_Some (arr h !! j)) ->
  exists h', clear_idx h i n = Ok h' /\ cur h' = cur h /\ alloc h' = alloc h /\ arr h' = arr h /\
    (forall s, idxof h' s = 0 \/ idxof h' s = idxof h s) /\
    (forall j (e : nat * K), i <= j < i + n -> arr h !! j = Some e -> idxof h' e.1 = 0).
Proof.
  induction n as [|n IH]; intros h i Ha Hs; cbn [clear_idx].
  { exists h. split_and!; try done; [by right|lia]. }
  destruct (Hs i ltac:(lia)) as [e Ee]. rewrite (rd_ok h i e) by (done || lia). cbn [obind].
  destruct (IH (set_idx h e.1 0) (S i)) as (h'&R1&R2&R3&R4&R5&R6).
  - simpl. lia.
  - intros j Hj. simpl. apply Hs. lia.
  - exists h'. simpl in *. split_and!; try done.
    + intros s. destruct (R5 s) as [R|R]; [by left|]. rewrite idxof_set_idx in R.
      destruct (decide (s = e.1)); [by left|by right].
    + intros j e' Hj Ej. destruct (decide (i = j)) as [->|Hne].
      * assert (e' = e) as -> by congruence.
        destruct (R5 e.1) as [R|R]; [done|]. rewrite R, idxof_set_idx. by rewrite decide_True.
      * apply (R6 j); [lia|done].
Qed.
Lemma makeemptyheap_spec h m : rep h m ->
  exists h', makeemptyheap h = Ok h' /\ rep h' ∅ /\ ord 1 h'.
Proof.
  intros H. unfold makeemptyheap. pose proof (rep_alloc _ _ _ H) as Hal.
  destruct (clear_idx_spec (cur h) h 1) as (h'&R1&R2&R3&R4&R5&R6).
  - lia.
  - intros j Hj. eapply rep_all; [done|lia].
  - rewrite R1. cbn [obind]. eexists; split; [done|]. split.
    + split_and!; simpl; try done; [lia|lia|].
      intros s _ _. change (idxof (set_cur h' 0) s) with (idxof h' s).
      destruct (m !! s) as [k|] eqn:Es.
      * destruct (rep_lookup _ _ _ _ _ H Es) as [Hi Ha]. apply (R6 (idxof h s) (s,k)); [lia|done].
      * destruct (R5 s) as [R|R]; [done|]. rewrite R. by apply (rep_none h m s H).
    + intros i a b Hi. simpl in Hi. lia.
Qed.

Lemma rekey_loop_spec f n : forall h m i, rep h m -> i + n = S (cur h) -> 1 <= i ->
  exists h', rekey_loop f h i n = Ok h' /\ cur h' = cur h /\
    rep h' (map_imap (fun s k => Some (if (i <=? idxof h s) then f s k else k)) m).
Proof.
  induction n as [|n IH]; intros h m i H Hn Hi; cbn [rekey_loop].
  { exists h. split; [done|]. split; [done|].
    assert (map_imap (λ s k, Some (if i <=? idxof h s then f s k else k)) m = m) as ->; [|done].
    apply map_eq. intros s. rewrite map_lookup_imap. destruct (m !! s) as [k|] eqn:Es; simpl; [|done].
    destruct (rep_lookup _ _ _ _ _ H Es). destruct (Nat.leb_spec i (idxof h s)); [lia|done]. }
  pose proof (rep_alloc _ _ _ H) as Hal.
  destruct (rep_arr _ _ _ i H ltac:(lia)) as (s&k&E&Em&Ei).
  rewrite (rd_ok h i (s,k)) by (done || lia). cbn [obind]. simpl fst. simpl snd.
  destruct (V_of_wr0 h i s k (f s k) E Ei ltac:(lia) ltac:(lia)) as (h1&->&->). cbn [obind].
  pose proof (rep_V_rekey None h m s k (f s k) H Em) as H1. rewrite Ei in H1.
  destruct (IH _ _ (S i) H1 ltac:(simpl; lia) ltac:(lia)) as (h'&R1&R2&R3).
  exists h'. split; [done|]. split; [done|].
  assert (map_imap (λ s0 k0, Some (if S i <=? idxof (V h i (s, f s k)) s0 then f s0 k0 else k0)) (<[s:=f s k]> m)
        = map_imap (λ s0 k0, Some (if i <=? idxof h s0 then f s0 k0 else k0)) m) as <-; [|done].
  apply map_eq. intros s'. rewrite !map_lookup_imap. destruct (decide (s' = s)) as [->|Hne].
  - rewrite lookup_insert, Em. cbn [option_bind mbind]. rewrite idxof_V; cbn [fst]. rewrite decide_True by done.
    destruct (Nat.leb_spec (S i) i); [lia|]. destruct (Nat.leb_spec i (idxof h s)); [done|lia].
  - rewrite lookup_insert_ne by done. destruct (m !! s') as [k'|] eqn:Es; cbn [option_bind mbind]; [|done].
    rewrite idxof_V; cbn [fst]. rewrite decide_False by done.
    destruct (rep_lookup _ _ _ _ _ H Es) as [Hj Ej].
    assert (idxof h s' <> i) by congruence.
    destruct (Nat.leb_spec (S i) (idxof h s')), (Nat.leb_spec i (idxof h s')); try done; lia.
Qed.
Lemma rekey_spec f h m : rep h m ->
  exists h', rekey f h = Ok h' /\ rep h' (map_imap (fun s k => Some (f s k)) m).
Proof.
  intros H. unfold rekey. destruct (rekey_loop_spec f (cur h) h m 1 H ltac:(lia) ltac:(lia)) as (h'&R1&_&R2).
  exists h'. split; [done|].
  assert (map_imap (λ s k, Some (if 1 <=? idxof h s then f s k else k)) m = map_imap (λ s k, Some (f s k)) m) as <-; [|done].
  apply map_eq. intros s. rewrite !map_lookup_imap. destruct (m !! s) as [k|] eqn:Es; cbn [option_bind mbind]; [|done].
  destruct (rep_lookup _ _ _ _ _ H Es). destruct (Nat.leb_spec 1 (idxof h s)); [done|lia].
Qed.

Lemma getkeyheap_spec h m s : rep h m ->
  getkeyheap h s = match m !! s with Some k => Ok k | None => Exn h end.
Proof.
  intros H. unfold getkeyheap. destruct (m !! s) as [k|] eqn:Es.
  - destruct (rep_lookup _ _ _ _ _ H Es) as [Hi Ha]. destruct (Nat.eqb_spec (idxof h s) 0); [lia|].
    rewrite (rd_ok h _ (s,k)); [done| |done]. pose proof (rep_alloc _ _ _ H). lia.
  - apply (rep_none h m s H) in Es. by rewrite Es.
Qed.
Lemma inheap_spec h m s : rep h m -> inheap h s = bool_decide (is_Some (m !! s)).
Proof.
  intros H. unfold inheap. destruct (m !! s) as [k|] eqn:Es.
  - destruct (rep_lookup _ _ _ _ _ H Es) as [Hi Ha]. destruct (Nat.eqb_spec (idxof h s) 0); [lia|].
    done.
  - apply (rep_none h m s H) in Es. by rewrite Es.
Qed.
Lemma deleteheap_exn h m s : rep h m -> m !! s = None -> deleteheap ops h s = Exn h.
Proof. intros H Hs. unfold deleteheap. apply (rep_none h m s H) in Hs. by rewrite Hs. Qed.
Lemma updateheap_exn h m s k : rep h m -> m !! s = None -> updateheap ops h s k = Exn h.
Proof. intros H Hs. unfold updateheap. apply (rep_none h m s H) in Hs. by rewrite Hs. Qed.
Lemma deleteheap_unsafe_exn h m s : rep h m -> m !! s = None -> deleteheap_unsafe h s = Exn h.
Proof. intros H Hs. unfold deleteheap_unsafe. apply (rep_none h m s H) in Hs. by rewrite Hs. Qed.
Lemma updateheap_unsafe_exn h m s k : rep h m -> m !! s = None -> updateheap_unsafe ops h s k = Exn h.
Proof. intros H Hs. unfold updateheap_unsafe. apply (rep_none h m s H) in Hs. by rewrite Hs. Qed.
End proofs.
Notation rep := (repx None).
