From Coq Require Import ZifyBool ZifyNat QArith Qround Lqa.
From Verif Require Import Base KeyModel HeapModel HeapProofs ListModel ListProofs AngleModel AngleProofs AraModel AraSpec AraProofs AraPath AraProofs7 AnaModel AnaSpec AnaProofs.
Local Open Scope Z_scope.

(** What the unsafe heap operations do to the slots. *)
Lemma delete_unsafe_slots (h h' : heap ckey) m s k j : rep h m -> (1 <= j <= cur h)%nat -> arr h !! j = Some (s, k) ->
  deleteheap_unsafe h s = Ok h' -> cur h' = (cur h - 1)%nat /\ exists el, arr h !! cur h = Some el /\ arr h' = <[j := el]> (arr h).
Proof.
  intros R Hj Hs. destruct (rep_slot None h m j s k R Hj Hs) as [_ Ei].
  destruct (rep_arr None h m (cur h) R ltac:(lia)) as (ls&lk0&El&_). pose proof (rep_alloc _ _ _ R) as Ha.
  unfold deleteheap_unsafe. rewrite Ei. destruct (Nat.eqb_spec j 0); [lia|].
  rewrite (rd_ok h (cur h) (ls, lk0)) by (done || lia). cbn [obind].
  unfold wr0. destruct (Z.ltb_spec (Z.of_nat j) (alloc h)); [|lia]. cbn [obind].
  match goal with |- context [rd ?h1 ?i] => rewrite (rd_ok h1 i (ls, lk0)) end; [|simpl; lia|simpl; by rewrite lookup_insert].
  cbn [obind]. intros [= <-]. simpl. split; [done|]. eauto.
Qed.
Lemma update_unsafe_slots (h h' : heap ckey) m s k k' j : rep h m -> (1 <= j <= cur h)%nat -> arr h !! j = Some (s, k) ->
  updateheap_unsafe ckeyops h s k' = Ok h' -> cur h' = cur h /\ forall i, i <> j -> arr h' !! i = arr h !! i.
Proof.
  intros R Hj Hs. destruct (rep_slot None h m j s k R Hj Hs) as [_ Ei]. pose proof (rep_alloc _ _ _ R) as Ha.
  unfold updateheap_unsafe. rewrite Ei. destruct (Nat.eqb_spec j 0); [lia|].
  rewrite (rd_ok h j (s, k)) by (done || lia). cbn [obind fst snd].
  destruct (kne ckeyops k k'); [|by intros [= <-]].
  unfold wr0. destruct (Z.ltb_spec (Z.of_nat j) (alloc h)); [|lia]. intros [= <-]. simpl. split; [done|].
  intros i Hi. by rewrite lookup_insert_ne.
Qed.

(** A value <= 1 is a state that cannot lie on a solution cheaper than G. *)
Lemma e_value_le G g h : 0 <= h -> Qle_bool (e_value G g h) 1 = true -> G <= g + h.
Proof.
  intros Hh HE. apply Qle_bool_iff in HE. unfold e_value in HE. destruct (h =? 0) eqn:E0.
  - destruct (g >=? G) eqn:Eg; [lia|]. exfalso. unfold INFINITECOST, Qle in HE. cbn in HE. lia.
  - assert (0 < inject_Z h)%Q as Hp by (rewrite <- (Zlt_Qlt 0); lia).
    assert (inject_Z (G - g) <= inject_Z h)%Q as Hle.
    { setoid_replace (inject_Z (G - g)) with (inject_Z (G - g) / inject_Z h * inject_Z h)%Q by (field; intros Hz; rewrite Hz in Hp; lra).
      nra. }
    rewrite <- Zle_Qle in Hle. lia.
Qed.

Section search.
Context (G : nat -> list (nat * Z)) (e : aenv) (fwd con : bool).
Context (Hge : good_env fwd 1 G e).
Notation lk := (lk e fwd).
Notation H s := (heur fwd e s).
Notation gl call c s := (sG (lk call c s)).
Notation vl call c s := (sV (lk call c s)).
Notation sr := (sr G (fun c => c)).
Notation gmono := (gmono e fwd).
Notation ainv := (ainv G e fwd).
Notation meas := (meas e fwd).

Definition late (clk : nat -> bool) (n n' : nat) : Prop := exists j, (n <= j < n')%nat /\ clk j = false.

Lemma aimprove_loop_spec clk iter call start goal : asees fwd con G e (Some goal) -> 0 <= call ->
  forall fuel c m GG n, ainv call start goal GG None c m -> GG = gl call c goal \/ start = goal -> current call c goal ->
    meas call goal c m < Z.of_nat fuel ->
    exists c' m' GG' n', aimprove_loop e fwd fuel clk iter call goal c GG n = Ok (c', GG', n') /\
      ainv call start goal GG' None c' m' /\ (GG' = gl call c' goal \/ start = goal) /\ gmono call c c' /\
      meas call goal c' m' <= meas call goal c m /\ (n <= n')%nat /\
      (m' = ∅ \/ gl call c' goal < INFINITECOST \/ late clk n n') /\
      (m <> ∅ -> (n < n')%nat /\ (clk n = true -> meas call goal c' m' < meas call goal c m)).
Proof.
  intros Hsees Hc. induction fuel as [|fuel IH]; intros c m GG n I HGG Hcur Hf.
  { pose proof (meas_bound G e fwd call start goal GG c m I). lia. }
  cbn [aimprove_loop]. pose proof (ai_rep _ _ _ _ _ _ _ _ _ _ I) as R.
  unfold emptyheap. destruct (cur (cOpen c) =? 0)%nat eqn:Ecur; cbn [negb].
  { apply Nat.eqb_eq in Ecur. apply (rep_empty_cur _ m R) in Ecur as ->.
    exists c, ∅, GG, n. split_and!; try done; try lia. auto. }
  apply Nat.eqb_neq in Ecur.
  assert (m <> ∅) as Hm by (intros ->; apply Ecur; by apply (rep_empty_cur _ ∅ R)).
  destruct (clk n) eqn:Eclk.
  2:{ exists c, m, GG, (S n). split_and!; try done; try lia. right; right. exists n. split; [lia|done]. }
  destruct (deletemin_spec ckeyops ckeylaws (cOpen c) m R (ai_ord _ _ _ _ _ _ _ _ _ _ I) Hm) as (s&k&h'&_&Ed&Hk&_&Rh&Oh).
  rewrite Ed. cbn [lift obind fst snd].
  pose proof (ai_heap _ _ _ _ _ _ _ _ _ _ I s ltac:(eauto)) as Hlt. pose proof (ai_g _ _ _ _ _ _ _ _ _ _ I s) as Hgs.
  destruct (lk_finite e fwd call c s) as (a&Ea&Eac&Ela); [lia|].
  assert (rdst (mkCore (cSt c) h' (cInc c)) s = Ok a) as Erd by (unfold rdst; cbn [cSt]; by rewrite Ea).
  rewrite Erd. cbn [obind]. destruct (s =? goal)%nat eqn:Esg.
  - apply Nat.eqb_eq in Esg as ->. set (c1 := mkCore (cSt c) h' (cInc c)).
    assert (forall u, lk call c1 u = lk call c u) as HL by done.
    assert (sG a = gl call c1 goal) as Eg by (by rewrite HL, Ela).
    exists c1, (delete goal m), (gl call c1 goal), (S n). rewrite Eg. split_and!; try done; try lia.
    + assert (ainv call start goal (gl call c goal) None c m) as I'.
      { apply (ainv_GG _ _ _ _ _ _ GG _ _ _ _ I). pose proof (ai_GG _ _ _ _ _ _ _ _ _ _ I). lia. }
      clear I. rewrite (HL goal). destruct I'. split; try done.
      * intros u. destruct (decide (u = goal)) as [->|?]; [rewrite lookup_delete; by intros [? [=]]|rewrite lookup_delete_ne by done]. apply ai_heap.
      * intros u. rewrite HL. destruct (decide (u = goal)) as [->|?]; [|rewrite lookup_delete_ne by done; apply ai_closed].
        intros _ _. right. pose proof (H_range G e fwd Hge goal). lia.
    + unfold meas. unfold sumv. unfold inb. rewrite lookup_delete, Hk.
      assert (foldr (λ u acc, vl call c1 u + acc) 0 (seq 0 (eSize e)) = foldr (λ u acc, vl call c u + acc) 0 (seq 0 (eSize e))) as -> by done.
      rewrite (HL goal). lia.
    + right. left. rewrite HL. lia.
    + intros _. split; [lia|]. intros _. unfold meas. unfold sumv, inb. rewrite lookup_delete, Hk.
      assert (foldr (λ u acc, vl call c1 u + acc) 0 (seq 0 (eSize e)) = foldr (λ u acc, vl call c u + acc) 0 (seq 0 (eSize e))) as -> by done.
      rewrite (HL goal). lia.
  - apply Nat.eqb_neq in Esg.
    assert (nbrs e fwd s = G s) as Hnb by (apply (as_edge _ _ _ _ _ Hsees); congruence).
    destruct (aexpand_spec G e fwd Hge GG iter call start goal c m s k h' Hnb Esg I Hc Hk Rh Oh) as (a0&c1&m1&Ea0&E1&I1&M1&Hmeas).
    assert (a0 = a) as -> by (unfold rdst in Ea0; rewrite Ea in Ea0; congruence).
    rewrite E1. cbn [obind].
    assert (current call c1 goal) as Hcur1 by by apply M1.
    rewrite (rdst_current e fwd call c1 goal Hcur1). cbn [obind].
    destruct (IH c1 m1 (gl call c1 goal) (S n)) as (c2&m2&G2&n2&E2&I2&HG2&M2&Hm2&Hn2&Hstop&_); [|by left|done|lia|].
    { apply (ainv_GG _ _ _ _ _ _ _ _ _ _ _ I1). pose proof (ai_GG _ _ _ _ _ _ _ _ _ _ I1). lia. }
    exists c2, m2, G2, n2. split_and!; try done; try lia.
    + by eapply gmono_trans.
    + destruct Hstop as [?|[?|(j&?&?)]]; [auto|auto|]. right; right. exists j. split; [lia|done].
Qed.

Lemma prune_loop_spec call GG (m0 : gmap nat ckey) : 0 <= GG <= INFINITECOST -> forall fuel c m j ep sat,
  let x u := gl call c u + H u in
  (forall u, is_Some (m0 !! u) -> current call c u /\ 0 <= gl call c u <= INFINITECOST) -> (forall u, sH (lk call c u) = H u) ->
  rep (cOpen c) m -> (forall u, is_Some (m !! u) -> is_Some (m0 !! u)) ->
  (1 <= j)%nat -> (S (cur (cOpen c)) - j < fuel)%nat ->
  (forall u, is_Some (m0 !! u) -> (exists i k, (j <= i <= cur (cOpen c))%nat /\ arr (cOpen c) !! i = Some (u, k)) \/ GG * ep.2 <= ep.1 * x u) ->
  (forall u, is_Some (m0 !! u) -> is_Some (m !! u) \/ GG <= x u) ->
  0 <= ep.2 <= ep.1 -> 1 <= ep.1 ->
  exists c' m' ep' sat', prune_loop fuel GG c j ep sat = Ok (c', sat') /\
    cSt c' = cSt c /\ rep (cOpen c') m' /\ (forall u, is_Some (m' !! u) -> is_Some (m0 !! u)) /\
    (forall u, is_Some (m0 !! u) -> is_Some (m' !! u) \/ GG <= x u) /\
    (forall u, is_Some (m0 !! u) -> GG * ep'.2 <= ep'.1 * x u) /\ 0 <= ep'.2 <= ep'.1 /\ 1 <= ep'.1 /\
    (sat = ep \/ (j <= cur (cOpen c))%nat -> sat' = ep') /\ ((cur (cOpen c) < j)%nat -> sat' = sat).
Proof.
  intros HGG. induction fuel as [|fuel IH]; intros c m j ep sat x Hcur HH R Hsub Hj Hf Hseen Hleft Hep Hep1; [lia|].
  cbn [prune_loop]. destruct (j <=? cur (cOpen c))%nat eqn:Ej.
  2:{ exists c, m, ep, sat. split_and!; try done; try lia; [|naive_solver lia]. intros u Hu. destruct (Hseen u Hu) as [(i&k&?&_)|?]; [lia|done]. }
  apply Nat.leb_le in Ej.
  destruct (rep_arr None _ _ j R ltac:(lia)) as (s&k&Ears&Hms&_). pose proof (rep_alloc _ _ _ R) as Ha.
  rewrite (rd_ok (cOpen c) j (s, k)) by (done || lia). cbn [lift obind fst snd].
  destruct (Hcur s (Hsub s ltac:(eauto))) as [Hcs Hgs]. rewrite (rdst_current e fwd call c s Hcs). cbn [obind].
  rewrite (HH s). pose proof (H_range G e fwd Hge s) as Hhs.
  assert (u32 (gl call c s + H s) = x s) as Eu.
  { unfold u32, x. apply Z.mod_small. unfold INFINITECOST in *. lia. }
  rewrite Eu. cbv zeta.
  match goal with |- context [prune_loop fuel GG _ _ ?q _] => set (ep1 := q) end.
  assert (0 <= ep1.2 <= ep1.1 /\ 1 <= ep1.1 /\ GG * ep1.2 <= ep1.1 * x s /\ (forall y, 0 <= y -> GG * ep.2 <= ep.1 * y -> GG * ep1.2 <= ep1.1 * y))
    as (Hq1&Hq2&Hq3&Hq4).
  { assert (0 <= x s) as Hx by (unfold x; lia). unfold ep1, rgt. cbn. destruct (ep.1 * x s <? GG * ep.2) eqn:Er; cbn.
    - apply Z.ltb_lt in Er. split_and!; [done|nia|nia|nia|]. intros y Hy Hle. assert (x s <= y) by nia. nia.
    - apply Z.ltb_ge in Er. split_and!; try done; lia. }
  clearbody ep1.
  assert (forall u, is_Some (m0 !! u) -> 0 <= x u) as Hx0.
  { intros u Hu. destruct (Hcur u Hu) as [_ ?]. pose proof (H_range G e fwd Hge u). unfold x. lia. }
  assert (forall u, is_Some (m0 !! u) -> GG * ep.2 <= ep.1 * x u -> GG * ep1.2 <= ep1.1 * x u) as Hkeep by auto.
  destruct (Qle_bool (e_value GG (gl call c s) (H s)) 1) eqn:Eq.
  - assert (GG <= gl call c s + H s) as Hxs.
    { apply e_value_le in Eq; [done|]. exact (proj1 Hhs). }
    destruct (deleteheap_unsafe_spec (cOpen c) m s k R Hms) as (h'&Ed&Rh). rewrite Ed. cbn [lift obind].
    destruct (delete_unsafe_slots _ _ m s k j R ltac:(lia) Ears Ed) as (Ecur&el&Eel&Earr).
    set (c1 := mkCore (cSt c) h' (cInc c)).
    destruct (IH c1 (delete s m) j ep1 ep1) as (c'&m'&ep'&sat'&E'&ES&R'&Hs'&Hl'&Hb'&He1&He2&Esat&_); try done.
    + intros u Hu. apply Hsub. by apply lookup_delete_is_Some in Hu as [_ ?].
    + cbn [c1 cOpen]. rewrite Ecur. lia.
    + intros u Hu. destruct (Hseen u Hu) as [(i&k0&Hi&Ei)|?]; [|right; by apply Hkeep].
      destruct (decide (u = s)) as [->|Hus]; [by right|]. left. cbn [c1 cOpen]. rewrite Ecur, Earr.
      assert (i <> j) by congruence.
      destruct (decide (i = cur (cOpen c))) as [->|Hi2].
      * exists j, k0. split; [lia|]. rewrite lookup_insert. congruence.
      * exists i, k0. split; [lia|]. by rewrite lookup_insert_ne by done.
    + intros u Hu. destruct (decide (u = s)) as [->|Hus]; [by right|]. rewrite lookup_delete_ne by done. by apply Hleft.
    + exists c', m', ep', sat'. split; [exact E'|]. split; [exact ES|]. split; [exact R'|]. split; [exact Hs'|]. split; [exact Hl'|].
      split; [exact Hb'|]. split; [exact He1|]. split; [exact He2|]. split; [|lia]. intros _. apply Esat. by left.
  - destruct (updateheap_unsafe_spec ckeyops ckeylaws (cOpen c) m s k (e_key GG (gl call c s) (H s)) R Hms) as (h'&Ed&Rh).
    rewrite Ed. cbn [lift obind].
    destruct (update_unsafe_slots _ _ m s k _ j R ltac:(lia) Ears Ed) as (Ecur&Earr).
    set (c1 := mkCore (cSt c) h' (cInc c)).
    destruct (IH c1 (<[s := e_key GG (gl call c s) (H s)]> m) (S j) ep1 ep1) as (c'&m'&ep'&sat'&E'&ES&R'&Hs'&Hl'&Hb'&He1&He2&Esat&_); try done.
    + intros u. destruct (decide (u = s)) as [->|Hus]; [intros _; apply Hsub; eauto|]. rewrite lookup_insert_ne by done. apply Hsub.
    + lia.
    + cbn [c1 cOpen]. rewrite Ecur. lia.
    + intros u Hu. destruct (Hseen u Hu) as [(i&k0&Hi&Ei)|?]; [|right; by apply Hkeep].
      destruct (decide (u = s)) as [->|Hus]; [by right|]. left. cbn [c1 cOpen]. rewrite Ecur.
      assert (i <> j) by congruence. exists i, k0. split; [lia|]. by rewrite Earr.
    + intros u Hu. destruct (Hleft u Hu) as [?|?]; [left|by right].
      destruct (decide (u = s)) as [->|Hus]; [rewrite lookup_insert; eauto|by rewrite lookup_insert_ne].
    + exists c', m', ep', sat'. split; [exact E'|]. split; [exact ES|]. split; [exact R'|]. split; [exact Hs'|]. split; [exact Hl'|].
      split; [exact Hb'|]. split; [exact He1|]. split; [exact He2|]. split; [|lia]. intros _. apply Esat. by left.
Qed.
End search.
