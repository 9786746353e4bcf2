From Verif Require Import Base KeyModel HeapModel HeapSpec HeapExec HeapProofs.

Section hist.
Context {K : Type} (ops : keyops K) (L : keylaws ops).
Notation ltp := (fun a b : K => klt ops a b = true).

Definition good (b : bool) (h : heap K) (m : gmap nat K) : Prop :=
  rep h m /\ (b = true -> ord ops 1 h).

Lemma min_of_kle (m : gmap nat K) s k : m !! s = Some k ->
  (forall s' k', m !! s' = Some k' -> kle ops k k') -> is_min ltp m s k.
Proof.
  intros H1 H2. split; [done|]. intros s' k' Hs' Hlt. apply H2 in Hs'. unfold kle in Hs'. congruence.
Qed.

Lemma exec_spec b h m o b' : good b h m -> next_mode b o = Some b' ->
  exists r h' m', exec ops h o = Ok (r, h') /\ hspec ltp (kinf ops) (HEAPSIZE - 1) m o r m' /\ good b' h' m'.
Proof.
  intros [H Ho] Hb.
  destruct o as [s k|s|s k| | | |s|s| | |s k|s|s k|f|]; simpl in Hb; unfold exec;
    try (destruct b; [|discriminate]; specialize (Ho eq_refl)); injection Hb as <-.
  - (* insert *)
    destruct (m !! s) as [k0|] eqn:Es.
    { destruct (insertheap_exn ops h m s k k0 H Es) as (h'&->&?&?). exists RThrow, h', m.
      split; [done|]. split; [|split; auto]. simpl. rewrite Es. split; [done|discriminate]. }
    destruct (decide (Z.of_nat (size m) = HEAPSIZE - 1)%Z) as [E|E].
    { rewrite (insertheap_full ops h m s k H E). exists RThrow, h, m.
      split; [done|]. split; [|split; auto]. simpl. split; [done|]. intros _ ?. done. }
    destruct (insertheap_spec ops L h m s k H Ho Es E) as (h'&->&?&?).
    exists RUnit, h', (<[s:=k]> m). split; [done|]. split; [|split; auto]. simpl.
    split; [|done]. intros [[? ?]|?]; [congruence|done].
  - (* delete *)
    destruct (m !! s) as [k|] eqn:Es.
    + destruct (deleteheap_spec ops L h m s k H Ho Es) as (h'&->&?&?).
      exists RUnit, h', (delete s m). split; [done|]. split; [|split; auto]. simpl. rewrite Es. done.
    + rewrite (deleteheap_exn ops h m s H Es). exists RThrow, h, m.
      split; [done|]. split; [|split; auto]. simpl. rewrite Es. split; [done|]. by intros [? ?].
  - (* update *)
    destruct (m !! s) as [k0|] eqn:Es.
    + destruct (updateheap_spec ops L h m s k0 k H Ho Es) as (h'&->&?&?).
      exists RUnit, h', (<[s:=k]> m). split; [done|]. split; [|split; auto]. simpl. rewrite Es. done.
    + rewrite (updateheap_exn ops h m s k H Es). exists RThrow, h, m.
      split; [done|]. split; [|split; auto]. simpl. rewrite Es. split; [done|]. by intros [? ?].
  - (* deletemin *)
    destruct (decide (m = ∅)) as [E|E].
    + unfold deleteminheap. apply (rep_empty_cur h m H) in E as E'. rewrite E'. simpl.
      exists RThrow, h, m. split; [done|]. split; [|split; auto]. done.
    + destruct (deletemin_spec ops L h m H Ho E) as (s&k&h'&_&->&Hs&Hmin&?&?).
      exists (RState s), h', (delete s m). split; [done|]. split; [|split; auto].
      simpl. split; [done|]. intros _. exists s, k. split; [by apply min_of_kle|done].
  - (* getmin *)
    destruct (decide (m = ∅)) as [E|E].
    + unfold getminheap. apply (rep_empty_cur h m H) in E as E'. rewrite E'. simpl.
      exists RThrow, h, m. split; [done|]. split; [|split; auto]. done.
    + destruct (getmin_spec ops L h m H Ho E) as (s&k&->&_&Hs&Hmin).
      exists (RElem s k), h, m. split; [done|]. split; [|split; auto].
      simpl. split; [done|]. intros _. exists s, k. split; [by apply min_of_kle|done].
  - (* getminkey *)
    destruct (decide (m = ∅)) as [E|E].
    + unfold getminkeyheap. apply (rep_empty_cur h m H) in E as E'. rewrite E'. simpl.
      exists (RKey (kinf ops)), h, m. split; [done|]. split; [|split; auto]. done.
    + destruct (getmin_spec ops L h m H Ho E) as (s&k&_&->&Hs&Hmin).
      exists (RKey k), h, m. split; [done|]. split; [|split; auto].
      simpl. split; [done|]. intros _. exists s, k. split; [by apply min_of_kle|done].
  - (* getkey *)
    rewrite (getkeyheap_spec h m s H). destruct (m !! s) as [k|] eqn:Es; simpl.
    + exists (RKey k), h, m. split; [done|]. rewrite Es. split; [|split; auto].
      split; [done|]. by intros ? [= <-].
    + exists RThrow, h, m. split; [done|]. rewrite Es. split; [|split; auto]. done.
  - (* inheap *)
    exists (RBool (inheap h s)), h, m. split; [done|]. split; [|split; auto]. simpl.
    exists (inheap h s). rewrite (inheap_spec h m s H). by rewrite bool_decide_eq_true.
  - (* isempty *)
    exists (RBool (emptyheap h)), h, m. split; [done|]. split; [|split; auto]. simpl.
    exists (emptyheap h). unfold emptyheap. rewrite (rep_empty_cur h m H), Nat.eqb_eq. done.
  - (* makeempty *)
    destruct (makeemptyheap_spec ops h m H) as (h'&->&?&?). exists RUnit, h', ∅. split; [done|]. split; [done|]. split; auto.
  - (* insert_unsafe *)
    destruct (m !! s) as [k0|] eqn:Es.
    { destruct (insert_unsafe_exn ops h m s k k0 H Es) as (h'&->&?&?). exists RThrow, h', m.
      split; [done|]. split; [|split; [done|discriminate]]. simpl. rewrite Es. split; [done|discriminate]. }
    destruct (decide (Z.of_nat (size m) = HEAPSIZE - 1)%Z) as [E|E].
    { rewrite (insert_unsafe_full ops h m s k H E). exists RThrow, h, m.
      split; [done|]. split; [|split; [done|discriminate]]. simpl. split; [done|]. intros _ ?. done. }
    destruct (insert_unsafe_spec ops h m s k H Es E) as (h'&->&?).
    exists RUnit, h', (<[s:=k]> m). split; [done|]. split; [|split; [done|discriminate]]. simpl.
    split; [|done]. intros [[? ?]|?]; [congruence|done].
  - (* delete_unsafe *)
    destruct (m !! s) as [k|] eqn:Es.
    + destruct (deleteheap_unsafe_spec h m s k H Es) as (h'&->&?).
      exists RUnit, h', (delete s m). split; [done|]. split; [|split; [done|discriminate]].
      simpl. rewrite Es. done.
    + rewrite (deleteheap_unsafe_exn h m s H Es). exists RThrow, h, m.
      split; [done|]. split; [|split; [done|discriminate]]. simpl. rewrite Es. split; [done|]. by intros [? ?].
  - (* update_unsafe *)
    destruct (m !! s) as [k0|] eqn:Es.
    + destruct (updateheap_unsafe_spec ops L h m s k0 k H Es) as (h'&->&?).
      exists RUnit, h', (<[s:=k]> m). split; [done|]. split; [|split; [done|discriminate]].
      simpl. rewrite Es. done.
    + rewrite (updateheap_unsafe_exn ops h m s k H Es). exists RThrow, h, m.
      split; [done|]. split; [|split; [done|discriminate]]. simpl. rewrite Es. split; [done|]. by intros [? ?].
  - (* rekey *)
    destruct (rekey_spec f h m H) as (h'&->&?). eexists RUnit, h', _. split; [done|].
    split; [|split; [done|discriminate]]. split; [done|]. intros s.
    rewrite map_lookup_imap. by destruct (m !! s).
  - (* makeheap *)
    destruct (makeheap_spec ops L h m H) as (h'&->&?&?). exists RUnit, h', m. split; [done|]. split; [done|]. split; auto.
Qed.

Lemma run_spec os : forall b h m, good b h m -> disciplined b os ->
  exists rs h' m' b', run ops h os = Ok (rs, h') /\
    hspec_run ltp (kinf ops) (HEAPSIZE - 1) m os rs m' /\ good b' h' m'.
Proof.
  induction os as [|o os IH]; intros b h m Hg Hd.
  { exists [], h, m, b. split; [done|]. split; [constructor|done]. }
  simpl in Hd. destruct (next_mode b o) as [b'|] eqn:Eb; [|done].
  destruct (exec_spec b h m o b' Hg Eb) as (r&h1&m1&E1&S1&G1).
  destruct (IH b' h1 m1 G1 Hd) as (rs&h2&m2&b2&E2&S2&G2).
  exists (r :: rs), h2, m2, b2. split_and!; [|by econstructor|done].
  cbn [run]. rewrite E1. cbn [obind snd]. rewrite E2. done.
Qed.

Lemma new_good n : (0 < n)%Z -> good true (@new_heap K n) ∅.
Proof. intros Hn. destruct (new_heap_rep ops n Hn). split; auto. Qed.

(** History theorem: content is exactly the specified map, observed through the API. *)
Lemma history n os : (0 < n)%Z -> disciplined true os ->
  exists rs h m, run ops (new_heap n) os = Ok (rs, h) /\
    hspec_run ltp (kinf ops) (HEAPSIZE - 1) ∅ os rs m /\
    (forall s, getkeyheap h s = match m !! s with Some k => Ok k | None => Exn h end) /\
    cur h = size m.
Proof.
  intros Hn Hd. destruct (run_spec os true _ _ (new_good n Hn) Hd) as (rs&h&m&b&E&S&[H Ho]).
  exists rs, h, m. split_and!; try done.
  - intros s. by apply getkeyheap_spec.
  - symmetry. by eapply rep_size.
Qed.

(** Back-pointers, stated on the raw array and the raw heapindex fields. *)
Lemma backpointers n os rs h : (0 < n)%Z -> disciplined true os ->
  run ops (new_heap n) os = Ok (rs, h) ->
  (forall s, idxof h s <> 0 -> 1 <= idxof h s <= cur h /\ exists k, arr h !! idxof h s = Some (s, k)) /\
  (forall i, 1 <= i <= cur h -> exists s k, arr h !! i = Some (s, k) /\ idxof h s = i) /\
  (forall s, inheap h s = true <-> exists i k, 1 <= i <= cur h /\ arr h !! i = Some (s, k)).
Proof.
  intros Hn Hd E0. destruct (run_spec os true _ _ (new_good n Hn) Hd) as (rs'&h'&m&b&E&S&[H Ho]).
  rewrite E0 in E. injection E as <- <-. split_and!.
  - intros s Hs. destruct (m !! s) as [k|] eqn:Es.
    + destruct (rep_lookup _ _ _ _ _ H Es). eauto.
    + apply (rep_none h m s H) in Es. done.
  - intros i Hi. destruct (rep_arr _ _ _ _ H Hi) as (s&k&?&?&?). eauto.
  - intros s. rewrite (inheap_spec h m s H), bool_decide_eq_true. split.
    + intros [k Hk]. destruct (rep_lookup _ _ _ _ _ H Hk). eauto 10.
    + intros (i&k&Hi&Ha). destruct (rep_slot _ _ _ _ _ _ H Hi Ha). eauto.
Qed.

(** Draining a queue by deleteminheap gives every element once, in non-decreasing key order. *)
Lemma drain_spec n : forall h m, rep h m -> ord ops 1 h -> n = size m ->
  exists (l : list (nat * K)) h', run ops h (replicate n ODeleteMin) = Ok (map (fun e => RState e.1) l, h') /\
    (list_to_map l : gmap nat K) = m /\ NoDup (l.*1) /\
    (forall i j a b, i <= j -> l !! i = Some a -> l !! j = Some b -> klt ops b.2 a.2 = false) /\
    rep h' ∅.
Proof.
  induction n as [|n IH]; intros h m H Ho Hn.
  { symmetry in Hn. apply map_size_empty_iff in Hn as ->. exists [], h. split_and!; try done. constructor. }
  assert (m <> ∅) as Hne. { intros ->. rewrite map_size_empty in Hn. done. }
  destruct (deletemin_spec ops L h m H Ho Hne) as (s&k&h1&_&E&Hs&Hmin&H1&Ho1).
  assert (n = size (delete s m)) as Hn1.
  { rewrite map_size_delete_Some by eauto. lia. }
  destruct (IH h1 (delete s m) H1 Ho1 Hn1) as (l&h'&E2&Hl&Hnd&Hsort&H').
  assert (forall e, e ∈ l -> m !! e.1 = Some e.2 /\ e.1 <> s) as Hin.
  { intros [s' k'] He. simpl. apply (elem_of_list_to_map_1 (M := gmap nat)) in He; [|done].
    rewrite Hl in He. apply lookup_delete_Some in He as [? ?]. done. }
  exists ((s,k) :: l), h'. split_and!.
  - cbn [replicate run exec]. unfold exec. rewrite E. cbn [catchv obind fst snd]. rewrite E2. done.
  - simpl. rewrite Hl. by rewrite insert_delete.
  - simpl. constructor; [|done]. intros Hs'. apply elem_of_list_fmap in Hs' as (e&->&He).
    destruct (Hin e He). done.
  - intros i j a b Hij Ha Hb. destruct i as [|i].
    + injection Ha as <-. simpl. destruct j as [|j].
      * injection Hb as <-. apply (kl_irrefl _ L).
      * simpl in Hb. apply elem_of_list_lookup_2 in Hb. destruct (Hin b Hb) as [Hb1 _].
        apply (Hmin _ _ Hb1).
    + destruct j as [|j]; [lia|]. simpl in *. apply (Hsort i j); [lia|done|done].
  - done.
Qed.

(** Arbitrary overwrite of keys + makeheap + drain. *)
Lemma rekey_makeheap_drain n os rs h f : (0 < n)%Z -> disciplined true os ->
  run ops (new_heap n) os = Ok (rs, h) ->
  exists (l : list (nat * K)) h',
    run ops h (ORekey f :: OMakeHeap :: replicate (cur h) ODeleteMin) =
      Ok (RUnit :: RUnit :: map (fun e => RState e.1) l, h') /\
    NoDup (l.*1) /\
    (forall s k, (s, k) ∈ l <-> exists k0, getkeyheap h s = Ok k0 /\ k = f s k0) /\
    (forall i j a b, i <= j -> l !! i = Some a -> l !! j = Some b -> klt ops b.2 a.2 = false) /\
    emptyheap h' = true /\ (forall s, inheap h' s = false).
Proof.
  intros Hn Hd E0. destruct (run_spec os true _ _ (new_good n Hn) Hd) as (rs'&h0&m&b&E&S&[H Ho]).
  rewrite E0 in E. injection E as <- <-.
  destruct (rekey_spec f h m H) as (h1&E1&H1).
  destruct (makeheap_spec ops L h1 _ H1) as (h2&E2&H2&Ho2).
  pose proof (rep_size _ _ _ H) as Hsz.
  assert (cur h = size (map_imap (λ s k, Some (f s k)) m)) as Hsz2.
  { rewrite <- Hsz. rewrite <- !(size_dom (D := gset nat)). f_equal. apply set_eq. intros s.
    rewrite !elem_of_dom, map_lookup_imap. destruct (m !! s); simpl; [|done].
    split; intros _; eauto. }
  destruct (drain_spec (cur h) h2 _ H2 Ho2 Hsz2) as (l&h'&E3&Hl&Hnd&Hsort&H').
  exists l, h'. split_and!; try done.
  - cbn [run]. unfold exec at 1. rewrite E1. cbn [catchu obind fst snd].
    cbn [run]. unfold exec at 1. rewrite E2. cbn [catchu obind fst snd]. rewrite E3. done.
  - intros s k. rewrite (elem_of_list_to_map (M := gmap nat)) by done. rewrite Hl.
    rewrite map_lookup_imap. rewrite (getkeyheap_spec h m s H).
    destruct (m !! s) as [k0|]; simpl.
    + split; [intros [= <-]; eauto|]. intros (?&[= <-]&->). done.
    + split; [done|]. intros (?&?&?). done.
  - unfold emptyheap. apply Nat.eqb_eq. by apply (rep_empty_cur h' ∅ H').
  - intros s. by rewrite (inheap_spec h' ∅ s H').
Qed.
End hist.
