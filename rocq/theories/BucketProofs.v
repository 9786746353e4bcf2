(** Representation invariant of CBucket. *)
From Coq Require Import ZifyBool ZifyNat.
From Verif Require Import Base BucketModel BucketSpec.
Local Open Scope Z_scope.

Definition slot (n : nat) (p : Z) : nat :=
  if p =? INFINITECOST then (n - 1)%nat else if p >=? Z.of_nat n - 2 then (n - 2)%nat else Z.to_nat p.
Record brep0 (b : bucket) (m : gmap nat Z) (d : bool) : Prop := {
  b_n : (2 <= length (bV b))%nat;
  b_pr : forall s p, m !! s = Some p -> 0 <= p <= INFINITECOST;
  b_in : forall i l j s, bV b !! i = Some l -> l !! j = Some s -> bHi b !! s = Some (Z.of_nat j) /\ exists p, m !! s = Some p /\ slot (length (bV b)) p = i;
  b_out : forall s p, m !! s = Some p -> exists l j, bV b !! slot (length (bV b)) p = Some l /\ l !! j = Some s;
  b_ass : forall l j s, bV b !! (length (bV b) - 2)%nat = Some l -> l !! j = Some s -> bAss b !! j = m !! s;
  b_len : forall l, d = false -> bV b !! (length (bV b) - 2)%nat = Some l -> length (bAss b) = length l
}.
Definition bcur (b : bucket) (m : gmap nat Z) : Prop :=
  match bCi b with
  | None => m = ∅ /\ bCp b = INFINITECOST
  | Some i => exists l s, bV b !! i = Some l /\ 0 <= bCv b /\ l !! Z.to_nat (bCv b) = Some s /\ is_min m s (bCp b) /\ (i <> (length (bV b) - 2)%nat -> bCv b = 0)
  end.
Definition brep (b : bucket) (m : gmap nat Z) (d : bool) : Prop := brep0 b m d /\ bcur b m.

Lemma slot_lt n p : (2 <= n)%nat -> 0 <= p -> (slot n p < n)%nat.
Proof. intros. unfold slot. destruct (p =? INFINITECOST) eqn:E1; [lia|]. destruct (p >=? Z.of_nat n - 2) eqn:E2; lia. Qed.
Lemma slot_mono n p q : (2 <= n)%nat -> 0 <= p <= INFINITECOST -> 0 <= q <= INFINITECOST -> (slot n p < slot n q)%nat -> p < q.
Proof.
  unfold slot. destruct (p =? INFINITECOST) eqn:E1, (q =? INFINITECOST) eqn:E2, (p >=? Z.of_nat n - 2) eqn:E3, (q >=? Z.of_nat n - 2) eqn:E4; lia.
Qed.
Lemma slot_normal n p : (2 <= n)%nat -> 0 <= p <= INFINITECOST -> (slot n p < n - 2)%nat -> p = Z.of_nat (slot n p).
Proof. unfold slot. destruct (p =? INFINITECOST) eqn:E1, (p >=? Z.of_nat n - 2) eqn:E3; lia. Qed.
Lemma slot_over n p : (2 <= n)%nat -> 0 <= p <= INFINITECOST -> slot n p = (n - 2)%nat <-> overflow (Z.of_nat n - 2) p = true.
Proof. unfold slot, overflow. destruct (p =? INFINITECOST) eqn:E1, (p >=? Z.of_nat n - 2) eqn:E3; lia. Qed.
Lemma slot_inf n p : (2 <= n)%nat -> 0 <= p <= INFINITECOST -> slot n p = (n - 1)%nat -> p = INFINITECOST.
Proof. unfold slot. destruct (p =? INFINITECOST) eqn:E1, (p >=? Z.of_nat n - 2) eqn:E3; lia. Qed.

Lemma first_nonempty_spec l : forall i, (i <= first_nonempty l i <= i + length l)%nat /\
  (forall j, (i + j < first_nonempty l i)%nat -> l !! j = Some []) /\
  ((first_nonempty l i < i + length l)%nat -> exists x, l !! (first_nonempty l i - i)%nat = Some x /\ x <> []).
Proof.
  induction l as [|x l IH]; intros i; cbn [first_nonempty length].
  - split_and!; try lia.
  - destruct x as [|s x].
    + destruct (IH (S i)) as (H1&H2&H3). split_and!; [lia|lia| |].
      * intros j Hj. destruct j as [|j]; [done|]. apply H2. lia.
      * intros Hlt. destruct H3 as (y&Hy&?); [lia|]. exists y. split; [|done]. replace (first_nonempty l (S i) - i)%nat with (S (first_nonempty l (S i) - S i)) by lia. done.
    + split_and!; try lia. intros _. exists (s :: x). rewrite Nat.sub_diag. done.
Qed.

Lemma scan_spec ass : forall n e cp cv, 0 <= e -> (forall j, (j < n)%nat -> is_Some (ass !! (Z.to_nat e + j)%nat)) ->
  exists cp' cv', scan_ass n e ass cp cv = Ok (cp', cv') /\ cp' <= cp /\
    (forall j a, (j < n)%nat -> ass !! (Z.to_nat e + j)%nat = Some a -> cp' <= a) /\
    (cp' = cp /\ cv' = cv \/ exists j, (j < n)%nat /\ cv' = e + Z.of_nat j /\ ass !! (Z.to_nat e + j)%nat = Some cp').
Proof.
  induction n as [|n IH]; intros e cp cv He Hs; cbn [scan_ass].
  - exists cp, cv. split_and!; [done|lia|intros; lia|by left].
  - destruct (Hs 0%nat) as [a Ha]; [lia|]. rewrite Nat.add_0_r in Ha. unfold vat. replace (e <? 0) with false by lia. rewrite Ha. cbn [obind].
    assert (forall cp cv, exists cp' cv', scan_ass n (e + 1) ass cp cv = Ok (cp', cv') /\ cp' <= cp /\
      (forall j a, (j < n)%nat -> ass !! (Z.to_nat e + S j)%nat = Some a -> cp' <= a) /\
      (cp' = cp /\ cv' = cv \/ exists j, (j < n)%nat /\ cv' = e + Z.of_nat (S j) /\ ass !! (Z.to_nat e + S j)%nat = Some cp')) as IH'.
    { intros cp0 cv0.
      assert (forall j, (Z.to_nat (e + 1) + j)%nat = (Z.to_nat e + S j)%nat) as Ej by lia.
      destruct (IH (e + 1) cp0 cv0) as (cp'&cv'&E&H1&H2&H3); [lia|intros j Hj; rewrite Ej; apply Hs; lia|].
      exists cp', cv'. split_and!; try done.
      - intros j a0 Hj. rewrite <- Ej. by apply H2.
      - destruct H3 as [?|(j&Hj&Hc&Hl)]; [by left|right]. exists j. rewrite Ej in Hl. split_and!; [done|lia|done]. }
    destruct (cp >? a) eqn:Ec.
    + destruct (IH' a e) as (cp'&cv'&E&H1&H2&H3). exists cp', cv'. split_and!; [done|lia| |].
      * intros [|j] a0 Hj Hl; [rewrite Nat.add_0_r in Hl; rewrite Ha in Hl; injection Hl as <-; lia|eapply H2; [|done]; lia].
      * right. destruct H3 as [(->&->)|(j&Hj&Hc&Hl)]; [exists 0%nat; rewrite Nat.add_0_r; split_and!; [lia|lia|done]|exists (S j); split_and!; [lia|done|done]].
    + destruct (IH' cp cv) as (cp'&cv'&E&H1&H2&H3). exists cp', cv'. split_and!; [done|lia| |].
      * intros [|j] a0 Hj Hl; [rewrite Nat.add_0_r in Hl; rewrite Ha in Hl; injection Hl as <-; lia|eapply H2; [|done]; lia].
      * destruct H3 as [?|(j&Hj&Hc&Hl)]; [by left|right; exists (S j); split_and!; [lia|done|done]].
Qed.

(** recompute restores the current minimum when all buckets below [start] are empty. *)
Lemma recompute_spec b m d start : brep0 b m d -> 0 <= start -> (Z.to_nat start <= length (bV b))%nat ->
  (forall s p, m !! s = Some p -> start <= Z.of_nat (slot (length (bV b)) p)) ->
  exists b', recompute b start = Ok b' /\ brep b' m d /\ bV b' = bV b.
Proof.
  intros R Hs0 Hs Hlow. pose proof R as [Hn Hpr Hin Hout Hass Hlen]. unfold recompute.
  set (st := Z.to_nat start) in *. destruct (first_nonempty_spec (drop st (bV b)) st) as (H1&H2&H3).
  set (f := first_nonempty (drop st (bV b)) st) in *. rewrite drop_length in H1, H3.
  assert (forall i p v, brep0 (mkB (bV b) (bAss b) (bHi b) i p v) m d) as HR by (intros; by split).
  assert (forall s p, m !! s = Some p -> (f <= slot (length (bV b)) p)%nat) as Hge.
  { intros s p Hm. destruct (decide (f <= slot (length (bV b)) p)%nat); [done|]. exfalso. specialize (Hlow s p Hm).
    destruct (Hout s p Hm) as (l&j&Hl&Hj). specialize (H2 (slot (length (bV b)) p - st)%nat). rewrite lookup_drop in H2.
    replace (st + (slot (length (bV b)) p - st))%nat with (slot (length (bV b)) p) in H2 by lia. rewrite H2 in Hl by lia. injection Hl as <-. done. }
  assert ((f < length (bV b))%nat -> exists l s p, bV b !! f = Some l /\ l !! 0%nat = Some s /\ m !! s = Some p /\ slot (length (bV b)) p = f) as Hex.
  { intros Hf. destruct H3 as (x&Hx&Hne); [lia|]. rewrite lookup_drop in Hx. replace (st + (f - st))%nat with f in Hx by lia.
    destruct x as [|s x]; [done|]. destruct (Hin f (s :: x) 0%nat s Hx eq_refl) as (_&p&Hp&Es). exists (s :: x), s, p. done. }
  unfold nbuckets. destruct (Z.of_nat f <? Z.of_nat (length (bV b)) - 2) eqn:E1; [|destruct (Z.of_nat f =? Z.of_nat (length (bV b)) - 2) eqn:E2; [|destruct (Z.of_nat f =? Z.of_nat (length (bV b)) - 1) eqn:E3]].
  - eexists. split; [reflexivity|]. split; [|done]. split; [apply HR|]. unfold bcur. cbn. rewrite Nat2Z.id.
    destruct Hex as (l&s&p&Hl&Hs'&Hp&Es); [lia|]. exists l, s. split_and!; try done. split.
    + rewrite Hp. f_equal. rewrite (slot_normal (length (bV b)) p) by (try done; eauto; lia). lia.
    + intros s' p' Hp'. specialize (Hge s' p' Hp'). destruct (decide (slot (length (bV b)) p' < length (bV b) - 2)%nat) as [Hl'|Hl'].
      * rewrite (slot_normal (length (bV b)) p') by (try done; eauto). lia.
      * assert (p < p') by (eapply (slot_mono (length (bV b))); eauto; lia). assert (p = Z.of_nat (slot (length (bV b)) p)) by (apply slot_normal; [done|eauto|lia]). lia.
  - destruct Hex as (l&s&p&Hl&Hs'&Hp&Es); [lia|]. unfold bk. replace (Z.of_nat f <? 0) with false by lia. rewrite Nat2Z.id, Hl. cbn [obind].
    assert (f = (length (bV b) - 2)%nat) as Ef by lia.
    assert (forall j, (j < length l)%nat -> exists s a, l !! j = Some s /\ bAss b !! j = Some a /\ m !! s = Some a /\ 0 <= a < INFINITECOST) as Hl2.
    { intros j Hj. destruct (lookup_lt_is_Some_2 l j Hj) as [s' Hs2]. destruct (Hin f l j s' Hl Hs2) as (_&a&Ha&Esa). exists s', a.
      rewrite Ef in Hl. rewrite (Hass l j s' Hl Hs2), Ha. split_and!; try done; [by apply (Hpr s')|].
      pose proof (Hpr s' a Ha). assert (overflow (Z.of_nat (length (bV b)) - 2) a = true) as Ho by (apply slot_over; [done|done|lia]). unfold overflow in Ho. lia. }
    destruct (scan_spec (bAss b) (length l) 0 INFINITECOST INFINITECOST) as (cp&cv&Esc&H4&H5&H6); [lia| |].
    { intros j Hj. destruct (Hl2 j Hj) as (?&a&_&Ha&_). cbn. eauto. }
    rewrite Esc. cbn [obind fst snd]. assert (cp < INFINITECOST) as Hcp.
    { destruct (Hl2 0%nat) as (s0&a&_&Ha&_&?); [by apply lookup_lt_Some in Hs'|]. specialize (H5 0%nat a). change (Z.to_nat 0 + 0)%nat with 0%nat in H5. specialize (H5 ltac:(by apply lookup_lt_Some in Hs') Ha). lia. }
    replace (cp =? INFINITECOST) with false by lia. eexists. split; [reflexivity|]. split; [|done]. split; [apply HR|]. unfold bcur. cbn.
    destruct H6 as [(?&_)|(j&Hj&->&Hjl)]; [lia|]. change (Z.to_nat 0 + j)%nat with j in Hjl. destruct (Hl2 j Hj) as (sj&aj&Hsj&Haj&Hmj&_). assert (aj = cp) as -> by congruence.
    exists l, sj. split_and!; try done; try lia; [by replace (Z.to_nat (0 + Z.of_nat j)) with j by lia|].
    split; [done|]. intros s' p' Hp'. specialize (Hge s' p' Hp'). destruct (decide (slot (length (bV b)) p' = f)) as [E'|E'].
    + destruct (Hout s' p' Hp') as (l'&j'&Hl'&Hj'). rewrite E', Hl in Hl'. injection Hl' as <-. specialize (H5 j' p'). change (Z.to_nat 0 + j')%nat with j' in H5. apply H5; [by apply lookup_lt_Some in Hj'|].
      rewrite <- Hp'. rewrite Ef in Hl. by apply (Hass l).
    + pose proof (Hpr s' p' Hp'). pose proof (Hpr sj cp Hmj). destruct (decide (cp <= p')); [done|]. exfalso.
      assert (slot (length (bV b)) p' = (length (bV b) - 1)%nat) as E3. { pose proof (slot_lt (length (bV b)) p' Hn ltac:(lia)). lia. }
      apply slot_inf in E3; [lia|done|done].
  - destruct Hex as (l&s&p&Hl&Hs'&Hp&Es); [lia|]. eexists. split; [reflexivity|]. split; [|done]. split; [apply HR|]. unfold bcur. cbn. rewrite Nat2Z.id.
    exists l, s. split_and!; try done. assert (forall s p, m !! s = Some p -> p = INFINITECOST) as Hall.
    { intros s' p' Hp'. specialize (Hge s' p' Hp'). pose proof (Hpr s' p' Hp'). pose proof (slot_lt (length (bV b)) p' Hn ltac:(lia)). apply (slot_inf (length (bV b))); [done|done|lia]. }
    split; [rewrite Hp; f_equal; by eapply Hall|]. intros s' p' Hp'. by rewrite (Hall s' p' Hp').
  - eexists. split; [reflexivity|]. split; [|done]. split; [apply HR|]. unfold bcur. cbn. split; [|done]. apply map_empty. intros s. destruct (m !! s) as [p|] eqn:Hp; [|done].
    specialize (Hge s p Hp). pose proof (Hpr s p Hp). pose proof (slot_lt (length (bV b)) p Hn ltac:(lia)). lia.
Qed.

Lemma insert_index_slot b p : (2 <= length (bV b))%nat -> 0 <= p -> insert_index b p = Z.of_nat (slot (length (bV b)) p).
Proof. intros. unfold insert_index, slot, nbuckets. destruct (p =? INFINITECOST) eqn:E1; [lia|]. rewrite Z.sub_0_r. destruct (p >=? Z.of_nat (length (bV b)) - 2) eqn:E2; lia. Qed.

Lemma lookup_snoc_inv {A} (l : list A) x j y : (l ++ [x]) !! j = Some y -> l !! j = Some y \/ (j = length l /\ y = x).
Proof.
  intros H. destruct (decide (j < length l)%nat).
  - rewrite lookup_app_l in H by done. by left.
  - rewrite lookup_app_r in H by lia. destruct (j - length l)%nat eqn:E; cbn in H; [right; split; [lia|congruence]|]. by destruct n0.
Qed.

Lemma binsert_spec b m d s p : brep b m d -> m !! s = None -> 0 <= p <= INFINITECOST -> (overflow (nbuckets b - 2) p = true -> d = false) ->
  exists b', binsert b s p = Ok b' /\ brep b' (<[s := p]> m) d /\ length (bV b') = length (bV b).
Proof.
  intros [R C] Hms Hp Hd. pose proof R as [Hn Hpr Hin Hout Hass Hlen]. unfold binsert. rewrite insert_index_slot by (try done; lia).
  set (n := length (bV b)) in *. set (i := slot n p). assert (i < n)%nat as Hi by (apply slot_lt; [done|lia]).
  destruct (lookup_lt_is_Some_2 (bV b) i Hi) as [l Hl].
  unfold bk. replace (Z.of_nat i <? 0) with false by lia. rewrite Nat2Z.id, Hl. cbn [obind].
  unfold nbuckets in *. fold n. set (ass' := if Z.of_nat i =? Z.of_nat n - 2 then bAss b ++ [p] else bAss b).
  set (b1 := mkB _ ass' _ _ _ _).
  assert (length (bV b1) = n) as En by (cbn; by rewrite insert_length).
  assert (brep0 b1 (<[s := p]> m) d) as R1.
  { split; rewrite ?En; cbn.
    - done.
    - intros s' p' H. destruct (decide (s' = s)) as [->|]; [rewrite lookup_insert in H; injection H as <-; done|rewrite lookup_insert_ne in H by done; eauto].
    - intros i' l' j s' Hi' Hj. assert (s' = s /\ i' = i /\ j = length l \/ bV b !! i' = Some (match decide (i' = i) with left _ => l | _ => l' end) /\ (match decide (i' = i) with left _ => l | _ => l' end) !! j = Some s') as Hc.
      { destruct (decide (i' = i)) as [->|]; [|by right; rewrite list_lookup_insert_ne in Hi' by done].
        rewrite list_lookup_insert in Hi' by done. injection Hi' as <-. apply lookup_snoc_inv in Hj as [Hj|[-> ->]]; [by right|by left]. }
      destruct Hc as [(->&->&->)|[Hb Hj']].
      + rewrite lookup_insert. split; [done|]. exists p. by rewrite lookup_insert.
      + destruct (Hin _ _ _ _ Hb Hj') as (H1&p'&H2&H3). assert (s' <> s) by congruence. rewrite !lookup_insert_ne by done. eauto.
    - intros s' p' H. destruct (decide (s' = s)) as [->|].
      + rewrite lookup_insert in H. injection H as <-. fold i. rewrite list_lookup_insert by done. exists (l ++ [s]), (length l). split; [done|]. by rewrite lookup_app_r, Nat.sub_diag by done.
      + rewrite lookup_insert_ne in H by done. destruct (Hout s' p' H) as (l'&j&Hl'&Hj). destruct (decide (slot n p' = i)) as [E|E].
        * rewrite E in *. rewrite list_lookup_insert by done. exists (l ++ [s]), j. split; [done|]. assert (l' = l) as -> by congruence. by apply lookup_app_l_Some.
        * rewrite list_lookup_insert_ne by done. eauto.
    - intros l' j s' Hl' Hj. unfold ass'. destruct (decide (i = (n - 2)%nat)) as [E|E].
      + replace (Z.of_nat i =? Z.of_nat n - 2) with true by lia. rewrite E in *. rewrite list_lookup_insert in Hl' by done. injection Hl' as <-.
        assert (d = false) as Hdf by (apply Hd, slot_over; done). specialize (Hlen l Hdf Hl).
        apply lookup_snoc_inv in Hj as [Hj|[-> ->]].
        * destruct (Hin _ _ _ _ Hl Hj) as (_&p'&H2&_). assert (s' <> s) by congruence. rewrite lookup_insert_ne by done.
          rewrite lookup_app_l by (rewrite Hlen; by apply lookup_lt_Some in Hj). by apply (Hass l).
        * by rewrite lookup_insert, <- Hlen, lookup_app_r, Nat.sub_diag.
      + replace (Z.of_nat i =? Z.of_nat n - 2) with false by lia. rewrite list_lookup_insert_ne in Hl' by done.
        destruct (Hin _ _ _ _ Hl' Hj) as (_&p'&H2&_). assert (s' <> s) by congruence. rewrite lookup_insert_ne by done. by apply (Hass l').
    - intros l' Hdf Hl'. unfold ass'. destruct (decide (i = (n - 2)%nat)) as [E|E].
      + replace (Z.of_nat i =? Z.of_nat n - 2) with true by lia. rewrite E in *. rewrite list_lookup_insert in Hl' by done. injection Hl' as <-. rewrite !app_length. by rewrite (Hlen l).
      + replace (Z.of_nat i =? Z.of_nat n - 2) with false by lia. rewrite list_lookup_insert_ne in Hl' by done. eauto. }
  clearbody ass'. change (bCp b1) with (bCp b). destruct ((p <? bCp b) || (bCp b =? INFINITECOST)) eqn:Ec.
  - destruct (recompute_spec b1 (<[s := p]> m) d (Z.of_nat i) R1) as (b'&E&Hr&Hv); [lia|rewrite En; lia| |].
    { intros s' p'. rewrite En. intros H. destruct (decide (s' = s)) as [->|]; [rewrite lookup_insert in H; injection H as <-; done|].
      rewrite lookup_insert_ne in H by done. apply Nat2Z.inj_le. destruct (decide (i <= slot n p')%nat) as [|Hlt]; [done|]. exfalso.
      pose proof (Hpr s' p' H). assert (p' < p) by (apply (slot_mono n); [done|done|done|unfold i in *; lia]).
      unfold bcur in C. destruct (bCi b) as [ci|]; [|destruct C as [-> _]; done].
      destruct C as (lc&sc&_&_&_&[_ Hm]&_). specialize (Hm s' p' H). lia. }
    exists b'. split_and!; [done|done|by rewrite Hv].
  - exists b1. split_and!; [done| |done]. split; [done|]. unfold bcur in *. change (bCi b1) with (bCi b). change (bCp b1) with (bCp b). change (bCv b1) with (bCv b). rewrite En. fold n in C.
    destruct (bCi b) as [ci|]; [|destruct C; lia]. destruct C as (lc&sc&Hlc&H0&Hsc&[Hm1 Hm2]&Hz).
    assert (is_min (<[s := p]> m) sc (bCp b)) as HM.
    { assert (sc <> s) by congruence. split; [by rewrite lookup_insert_ne|]. intros s' p' H'. destruct (decide (s' = s)) as [->|]; [rewrite lookup_insert in H'; injection H' as <-; lia|rewrite lookup_insert_ne in H' by done; eauto]. }
    cbn. destruct (decide (ci = i)) as [->|].
    + rewrite list_lookup_insert by done. exists (l ++ [s]), sc. assert (lc = l) as -> by congruence. split_and!; try done. by apply lookup_app_l_Some.
    + rewrite list_lookup_insert_ne by done. exists lc, sc. split_and!; done.
Qed.

(** Removal of [s], which sits in bucket [slot p] at position heapindex. *)
Lemma bremove_at_spec b m d s p : brep b m d -> m !! s = Some p ->
  exists b', bremove_at b s (Z.of_nat (slot (length (bV b)) p)) = Ok b' /\ brep b' (delete s m) (out (nbuckets b - 2) d p) /\ length (bV b') = length (bV b).
Proof.
  intros [R C] Hms. pose proof R as [Hn Hpr Hin Hout Hass Hlen]. unfold bremove_at. pose proof (Hpr s p Hms) as Hp.
  destruct (Hout s p Hms) as (l&r&Hl&Hr). destruct (Hin _ _ _ _ Hl Hr) as (Hhi&_). rewrite Hhi.
  set (n := length (bV b)) in *. set (i := slot n p) in *. assert (i < n)%nat as Hi by (apply slot_lt; [done|lia]).
  unfold bk. replace (Z.of_nat i <? 0) with false by lia. rewrite Nat2Z.id, Hl. cbn [obind]. rewrite Nat2Z.id.
  assert (r < length l)%nat as Hrl by (by apply lookup_lt_Some in Hr).
  destruct (lookup_lt_is_Some_2 l (length l - 1)) as [t Ht]; [lia|]. destruct (Hin _ _ _ _ Hl Ht) as (Htj&pt&Hpt&Est).
  unfold nbuckets. fold n.
  assert (exists ass', (if Z.of_nat i =? Z.of_nat n - 2
     then do x <- vat (bAss b) (Z.of_nat (length l) - 1); do _ <- vat (bAss b) (Z.of_nat r); Ok (<[r:=x]> (bAss b))
     else Ok (bAss b)) = @Ok bexn _ ass' /\ (if decide (i = n - 2)%nat then exists x, bAss b !! (length l - 1)%nat = Some x /\ ass' = <[r := x]> (bAss b) else ass' = bAss b)) as (ass'&Ea&Ha).
  { destruct (decide (i = n - 2)%nat) as [E|E].
    - replace (Z.of_nat i =? Z.of_nat n - 2) with true by lia. rewrite E in Hl. pose proof (Hass _ _ _ Hl Ht) as H1. pose proof (Hass _ _ _ Hl Hr) as H2. rewrite Hpt in H1. rewrite Hms in H2.
      unfold vat. replace (Z.of_nat (length l) - 1 <? 0) with false by lia. replace (Z.of_nat r <? 0) with false by lia. replace (Z.to_nat (Z.of_nat (length l) - 1)) with (length l - 1)%nat by lia. rewrite Nat2Z.id, H1, H2. cbn. eauto.
    - replace (Z.of_nat i =? Z.of_nat n - 2) with false by lia. eauto. }
  rewrite Ea. cbn [obind]. unfold vat. replace (Z.of_nat (length l) - 1 <? 0) with false by lia. replace (Z.of_nat r <? 0) with false by lia. replace (Z.to_nat (Z.of_nat (length l) - 1)) with (length l - 1)%nat by lia. rewrite Nat2Z.id, Hr, Ht. cbn [obind].
  clear Ea. set (l' := take (length l - 1) (<[r := t]> l)). set (b1 := mkB _ ass' _ _ _ _).
  assert (length (bV b1) = n) as En by (cbn; by rewrite insert_length).
  assert (length l' = (length l - 1)%nat) as El' by (unfold l'; rewrite take_length, insert_length; lia).
  assert (forall j y, l' !! j = Some y -> (j < length l - 1)%nat /\ (j = r /\ y = t /\ y <> s \/ j <> r /\ l !! j = Some y /\ y <> s /\ y <> t)) as Hl'1.
  { intros j y H. assert (j < length l - 1)%nat as Hj by (apply lookup_lt_Some in H; lia). split; [done|]. unfold l' in H. rewrite lookup_take in H by done.
    destruct (decide (j = r)) as [->|].
    - rewrite list_lookup_insert in H by done. left. injection H as <-. split_and!; [done|done|]. intros ->. rewrite Hhi in Htj. injection Htj as E. lia.
    - rewrite list_lookup_insert_ne in H by done. right. destruct (Hin _ _ _ _ Hl H) as (Hj2&_). split_and!; [done|done| |].
      + intros ->. rewrite Hhi in Hj2. injection Hj2 as E. lia.
      + intros ->. rewrite Htj in Hj2. injection Hj2 as E. lia. }
  assert (forall j y, l !! j = Some y -> y <> s -> exists j', l' !! j' = Some y) as Hl'2.
  { intros j y H Hy. assert (j <> r) by congruence. pose proof (lookup_lt_Some _ _ _ H). destruct (decide (j = length l - 1)%nat) as [->|].
    - exists r. unfold l'. assert (y = t) as -> by congruence. rewrite lookup_take by lia. by rewrite list_lookup_insert.
    - exists j. unfold l'. rewrite lookup_take by lia. by rewrite list_lookup_insert_ne. }
  assert (brep0 b1 (delete s m) (out (Z.of_nat n - 2) d p)) as R1.
  { split; rewrite ?En; cbn.
    - done.
    - intros s' p' H. apply lookup_delete_Some in H as [_ H]. eauto.
    - intros i' l'' j s' Hi' Hj. destruct (decide (i' = i)) as [->|].
      + rewrite list_lookup_insert in Hi' by done. injection Hi' as <-. apply Hl'1 in Hj as (Hj&[(->&->&Hne)|(?&Hj'&Hne&Hne2)]).
        * rewrite lookup_insert_ne by done. rewrite lookup_insert. split; [done|]. exists pt. by rewrite lookup_delete_ne.
        * rewrite !lookup_insert_ne by done. rewrite lookup_delete_ne by done. eauto.
      + rewrite list_lookup_insert_ne in Hi' by done. destruct (Hin _ _ _ _ Hi' Hj) as (H1&p'&H2&H3).
        assert (s' <> s) by (intros ->; assert (p' = p) as -> by congruence; done).
        assert (s' <> t) by (intros ->; assert (p' = pt) as -> by congruence; congruence).
        rewrite !lookup_insert_ne by done. rewrite lookup_delete_ne by done. eauto.
    - intros s' p' H. apply lookup_delete_Some in H as [Hne H]. destruct (Hout s' p' H) as (l2&j&Hl2&Hj). destruct (decide (slot n p' = i)) as [E|E].
      + rewrite E in *. rewrite list_lookup_insert by done. assert (l2 = l) as -> by congruence. destruct (Hl'2 j s' Hj) as [j' Hj']; [done|]. eauto.
      + rewrite list_lookup_insert_ne by done. eauto.
    - intros l2 j s' Hl2 Hj. destruct (decide (i = n - 2)%nat) as [E|E].
      + destruct Ha as (x&Hx&->). rewrite E in *. rewrite list_lookup_insert in Hl2 by done. injection Hl2 as <-.
        pose proof (Hass _ _ _ Hl Hr) as H2. rewrite Hms in H2. pose proof (lookup_lt_Some _ _ _ H2).
        apply Hl'1 in Hj as (Hj&[(->&->&Hne)|(?&Hj'&Hne&Hne2)]).
        * rewrite list_lookup_insert by done. rewrite lookup_delete_ne by done. rewrite <- Hx. by apply (Hass l).
        * rewrite list_lookup_insert_ne by done. rewrite lookup_delete_ne by done. by apply (Hass l).
      + subst ass'. rewrite list_lookup_insert_ne in Hl2 by done. destruct (Hin _ _ _ _ Hl2 Hj) as (_&p'&H2&H3).
        assert (s' <> s) by (intros ->; assert (p' = p) as -> by congruence; done). rewrite lookup_delete_ne by done. by apply (Hass l2).
    - intros l2 Hd Hl2. unfold out in Hd. apply orb_false_iff in Hd as [Hd Ho]. destruct (decide (i = n - 2)%nat) as [E|E].
      + apply slot_over in E; [congruence|done|done].
      + subst ass'. rewrite list_lookup_insert_ne in Hl2 by done. eauto. }
  change (bCi b1) with (bCi b). unfold bcur in C. destruct (bool_decide (bCi b = Some i) && ((length l' =? 0)%nat || (Z.of_nat i =? Z.of_nat (length (bV b1)) - 2))) eqn:Ec.
  - apply andb_true_iff in Ec as [Ec1 _]. apply bool_decide_eq_true in Ec1. rewrite Ec1 in C. destruct C as (lc&sc&Hlc&H0&Hsc&[Hm1 Hm2]&Hz).
    destruct (Hin _ _ _ _ Hlc Hsc) as (_&pc&Hpc&Esc). assert (pc = bCp b) as -> by congruence.
    destruct (recompute_spec b1 (delete s m) (out (Z.of_nat n - 2) d p) (Z.of_nat i) R1) as (b'&E&Hrp&Hv); [lia|rewrite En; lia| |exists b'; split_and!; [done|done|by rewrite Hv]].
    intros s' p' H. rewrite En. apply lookup_delete_Some in H as [_ H]. apply Nat2Z.inj_le. destruct (decide (i <= slot n p')%nat) as [|Hlt]; [done|]. exfalso.
    assert (p' < bCp b) by (apply (slot_mono n); eauto; lia). specialize (Hm2 s' p' H). lia.
  - exists b1. split_and!; [done| |done]. split; [done|]. unfold bcur. change (bCi b1) with (bCi b). change (bCp b1) with (bCp b). change (bCv b1) with (bCv b). rewrite En.
    destruct (bCi b) as [ci|] eqn:Eci; [|destruct C as [-> _]; done]. destruct C as (lc&sc&Hlc&H0&Hsc&[Hm1 Hm2]&Hz). fold n in Hz.
    destruct (Hin _ _ _ _ Hlc Hsc) as (_&pc&Hpc&Esc). assert (pc = bCp b) as -> by congruence. fold n in Esc.
    destruct (decide (ci = i)) as [->|Hne].
    + rewrite En in Ec. rewrite bool_decide_true in Ec by done. cbn in Ec. apply orb_false_iff in Ec as [Ec1 Ec2]. assert (i <> n - 2)%nat as Hi2 by lia. rewrite (Hz Hi2) in *. cbn.
      rewrite list_lookup_insert by done. destruct l' as [|s0 l0] eqn:El0; [done|]. exists (s0 :: l0), s0. split_and!; try done; try lia.
      assert (exists p0, m !! s0 = Some p0 /\ slot n p0 = i /\ s0 <> s) as (p0&Hp0&Es0&Hn0).
      { destruct (Hl'1 0%nat s0 eq_refl) as (_&[(_&->&?)|(_&Hj'&?&_)]); [eauto|]. destruct (Hin _ _ _ _ Hl Hj') as (_&p0&?&?). eauto. }
      assert (p0 = bCp b) as ->.
      { pose proof (Hpr s0 p0 Hp0). pose proof (Hpr sc _ Hpc). destruct (decide (i < n - 2)%nat).
        - rewrite (slot_normal n p0), (slot_normal n (bCp b)); try done; lia.
        - rewrite (slot_inf n p0), (slot_inf n (bCp b)); try done; lia. }
      split; [by rewrite lookup_delete_ne|]. intros s' p' H. apply lookup_delete_Some in H as [_ H]. eauto.
    + exists lc, sc. cbn. rewrite list_lookup_insert_ne by done. split_and!; try done.
      assert (sc <> s) by (intros ->; assert (p = bCp b) as -> by congruence; done).
      split; [by rewrite lookup_delete_ne|]. intros s' p' H'. apply lookup_delete_Some in H' as [_ H']. eauto.
Qed.

Lemma bstep_spec b m d o : brep b m d -> ballowed (nbuckets b - 2) m d o ->
  exists a b' m' d', bstep b o = Ok (a, b') /\ bspec (nbuckets b - 2) m d o a m' d' /\ brep b' m' d' /\ length (bV b') = length (bV b).
Proof.
  intros Hr Ha. destruct o as [s p|s p| | | |]; cbn [bstep ballowed] in *.
  - destruct Ha as (H1&H2&H3). destruct (binsert_spec b m d s p) as (b'&E&R&L); try done. rewrite E. cbn. do 4 eexists. split_and!; try done. constructor.
  - destruct (bremove_at_spec b m d s p) as (b'&E&R&L); try done. unfold bremove.
    assert ((if p =? INFINITECOST then nbuckets b - 1 else if p - 0 >? nbuckets b - 2 then nbuckets b - 2 else p - 0) = Z.of_nat (slot (length (bV b)) p)) as ->.
    { destruct Hr as [[Hn Hpr _ _ _ _] _]. specialize (Hpr _ _ Ha). unfold slot, nbuckets. destruct (p =? INFINITECOST) eqn:E1; [lia|]. rewrite Z.sub_0_r. destruct (p >? _) eqn:E2, (p >=? _) eqn:E3; lia. }
    rewrite E. cbn. do 4 eexists. split_and!; try done. constructor.
  - unfold bpop. pose proof Hr as [R C]. unfold bcur in C. destruct (bCi b) as [i|] eqn:Ei.
    + destruct C as (l&s&Hl&H0&Hs&Hm&Hz). unfold bk, vat. replace (Z.of_nat i <? 0) with false by lia. rewrite Nat2Z.id, Hl. cbn [obind]. replace (bCv b <? 0) with false by lia. rewrite Hs. cbn [obind].
      destruct (b_in _ _ _ R _ _ _ _ Hl Hs) as (_&p&Hp&<-). destruct (bremove_at_spec b m d s p) as (b'&E&R'&L); try done. rewrite E. cbn. do 4 eexists. split_and!; try done.
      constructor. destruct Hm as [Hm1 Hm2]. assert (p = bCp b) as -> by congruence. done.
    + destruct C as [-> _]. cbn. do 4 eexists. split_and!; try done. constructor.
  - unfold bgetmin. pose proof Hr as [R C]. unfold bcur in C. destruct (bCi b) as [i|] eqn:Ei.
    + destruct C as (l&s&Hl&H0&Hs&Hm&Hz). unfold bk, vat. replace (Z.of_nat i <? 0) with false by lia. rewrite Nat2Z.id, Hl. cbn [obind]. replace (bCv b <? 0) with false by lia. rewrite Hs. cbn [obind].
      do 4 eexists. split_and!; try done. by econstructor.
    + destruct C as [-> _]. cbn. do 4 eexists. split_and!; try done. constructor.
  - unfold getminpriority. pose proof Hr as [R C]. unfold bcur in C. destruct (bCi b) as [i|] eqn:Ei.
    + destruct C as (l&s&_&_&_&Hm&_). do 4 eexists. split_and!; try done. by econstructor.
    + destruct C as [-> ->]. do 4 eexists. split_and!; try done. constructor.
  - do 4 eexists. split_and!; try done. pose proof Hr as [R C]. unfold bcur in C. unfold bempty. destruct (bCi b) as [i|] eqn:Ei.
    + destruct C as (l&s&_&_&_&[Hm _]&_). replace false with (bool_decide (m = ∅)); [constructor|]. rewrite bool_decide_eq_false. intros ->. done.
    + destruct C as [-> _]. replace true with (bool_decide ((∅ : gmap nat Z) = ∅)) by done. constructor.
Qed.

Lemma brun_spec os : forall b m d, brep b m d -> ballowed_all (nbuckets b - 2) m d os ->
  exists rs b' m' d', brun b os = Ok (rs, b') /\ bhist (nbuckets b - 2) m d os rs m' d' /\ brep b' m' d'.
Proof.
  induction os as [|o os IH]; intros b m d Hr Ha.
  - cbn. do 4 eexists. split_and!; try done. constructor.
  - destruct Ha as [Ha1 Ha2]. destruct (bstep_spec b m d o Hr Ha1) as (a&b1&m1&d1&E&Hs&Hr1&L). specialize (Ha2 _ _ _ Hs).
    assert (nbuckets b1 = nbuckets b) as En by (unfold nbuckets; by rewrite L). rewrite <- En in Ha2 at 1.
    destruct (IH b1 m1 d1 Hr1 Ha2) as (rs&b2&m2&d2&E2&Hh&Hr2). cbn. rewrite E. cbn. rewrite E2. cbn. rewrite En in Hh. do 4 eexists. split_and!; try done. by econstructor.
Qed.

Lemma new_bucket_spec f mx : 0 <= mx - f + 1 -> exists b, new_bucket f mx = Ok b /\ brep b ∅ false /\ nbuckets b - 2 = mx - f + 1.
Proof.
  intros H. unfold new_bucket, breset. cbn. replace (mx - f + 1 + 2 <? 0) with false by lia. eexists. split; [done|].
  set (n := Z.to_nat (mx - f + 1 + 2)). assert (forall i l, replicate n (@nil nat) !! i = Some l -> l = []) as Hrep by (intros i l Hl; by apply lookup_replicate in Hl as [-> _]).
  split; [|unfold nbuckets; cbn; rewrite replicate_length; lia]. split; [|done]. split; cbn; rewrite ?replicate_length.
  - lia.
  - done.
  - intros i l j s Hl. apply Hrep in Hl as ->. done.
  - done.
  - intros l j s Hl. apply Hrep in Hl as ->. done.
  - intros l _ Hl. by apply Hrep in Hl as ->.
Qed.
Lemma breset_spec b f mx : bV b <> [] -> 0 <= mx - f + 1 -> exists b', breset b f mx = Ok b' /\ brep b' ∅ false /\ nbuckets b' - 2 = mx - f + 1.
Proof.
  intros Hb H. unfold breset. assert (nbuckets b =? 0 = false) as -> by (unfold nbuckets; destruct (bV b); [done|cbn; lia]). cbn. replace (mx - f + 1 + 2 <? 0) with false by lia. eexists. split; [done|].
  set (n := Z.to_nat (mx - f + 1 + 2)). assert (forall i l, replicate n (@nil nat) !! i = Some l -> l = []) as Hrep by (intros i l Hl; by apply lookup_replicate in Hl as [-> _]).
  split; [|unfold nbuckets; cbn; rewrite replicate_length; lia]. split; [|done]. split; cbn; rewrite ?replicate_length.
  - lia.
  - done.
  - intros i l j s Hl. apply Hrep in Hl as ->. done.
  - done.
  - intros l j s Hl. apply Hrep in Hl as ->. done.
  - intros l _ Hl. by apply Hrep in Hl as ->.
Qed.
