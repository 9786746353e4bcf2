From Coq Require Import ZifyBool ZifyNat QArith Qround Lqa.
From Verif Require Import Base KeyModel HeapModel HeapProofs ListModel ListProofs AngleModel AngleProofs AraModel AraSpec AraProofs.
Local Open Scope Z_scope.

Section search.
Context (G : nat -> list (nat * Z)) (e : aenv) (fwd con : bool) (E : Q).
Context (Hge : good_env fwd E G e).
Notation lk := (lk e fwd).
Notation H s := (heur fwd e s).
Notation inz z s := (s ∈ z.*2).
Notation gl call c s := (sG (lk call c s)).
Notation vl call c s := (sV (lk call c s)).
Notation il call c s := (sIter (lk call c s)).
Notation hvalid := (hvalid e fwd).
Notation cinv := (cinv G e fwd).
Notation iinv := (iinv G e fwd con).
Notation kinv := (kinv e fwd).
Notation sr := (sr G).
Notation gmono := (gmono e fwd).
Notation unclosed := (unclosed e fwd).

Definition done_at (call : Z) (c : core) (m : gmap nat ckey) (goal : nat) : Prop :=
  forall u k, m !! u = Some k -> gl call c goal <= k0 k.

Lemma improve_loop_spec clk eps call iter start goal : (0 <= eps <= E)%Q -> 0 <= iter -> 0 <= call -> sees fwd con G e (Some goal) ->
  forall fuel c m z n, cinv call iter start None c m z -> iinv eps call iter start c m z -> kinv eps call c m -> hvalid c ->
    current call c goal -> (unclosed call iter c < fuel)%nat ->
    exists c' m' z' n', improve_loop e fwd fuel clk eps iter call goal c n = Ok (c', n') /\
      cinv call iter start None c' m' z' /\ iinv eps call iter start c' m' z' /\ kinv eps call c' m' /\ hvalid c' /\
      gmono call c c' /\ (n <= n')%nat /\ (done_at call c' m' goal \/ exists j, (n <= j < n')%nat /\ clk j = false).
Proof.
  intros He Hit Hc Hse. induction fuel as [|fuel IH]; intros c m z n I II K Hv Hcur Hf; [lia|].
  cbn [improve_loop]. rewrite (rdst_current e fwd call c goal Hcur). cbn [obind].
  pose proof (ci_g _ _ _ _ _ _ _ _ _ _ I) as Hg.
  destruct (decide (m = ∅)) as [->|Hne].
  { pose proof (proj1 (rep_empty_cur _ _ (ci_rep _ _ _ _ _ _ _ _ _ _ I)) eq_refl) as H0.
    unfold getminkeyheap, emptyheap. rewrite H0. cbn [Nat.eqb lift obind negb andb].
    exists c, ∅, z, n. split_and!; try done. left. intros u k. by rewrite lookup_empty. }
  destruct (getmin_spec ckeyops ckeylaws _ m (ci_rep _ _ _ _ _ _ _ _ _ _ I) (ci_ord _ _ _ _ _ _ _ _ _ _ I) Hne) as (s0&k00&_&Emk&_&_).
  destruct (deletemin_spec ckeyops ckeylaws _ m (ci_rep _ _ _ _ _ _ _ _ _ _ I) (ci_ord _ _ _ _ _ _ _ _ _ _ I) Hne)
    as (s&k&h'&Egm&Edm&Hk&Hmin&Rh&Oh).
  destruct (getmin_spec ckeyops ckeylaws _ m (ci_rep _ _ _ _ _ _ _ _ _ _ I) (ci_ord _ _ _ _ _ _ _ _ _ _ I) Hne) as (s1&k11&Egm'&Emk'&_&_).
  assert (k11 = k) as -> by congruence. rewrite Emk'. cbn [lift obind]. clear s0 k00 Emk Egm'.
  assert (emptyheap (cOpen c) = false) as Eem.
  { unfold emptyheap. pose proof (proj2 (rep_empty_cur _ _ (ci_rep _ _ _ _ _ _ _ _ _ _ I))) as Hx.
    destruct (cur (cOpen c) =? 0)%nat eqn:E0; [|done]. exfalso. apply Hne, Hx. lia. }
  rewrite Eem. cbn [negb andb].
  assert (forall s' k', m !! s' = Some k' -> k0 k <= k0 k') as Hmin'.
  { intros s' k' Hs'. apply kle_k0; [by eapply Hmin|by eapply (ci_k1 _ _ _ _ _ _ _ _ _ _ I)|by eapply (ci_k1 _ _ _ _ _ _ _ _ _ _ I)]. }
  pose proof (kinv_k0 G e fwd E Hge eps call iter start None c m z s k He I K Hk) as Ek.
  pose proof (hh_range G e fwd E Hge eps s He) as Hr.
  destruct ((k0 k <? INFINITECOST) && key_gt (mkKey (gl call c goal) 0) k) eqn:Econd.
  2:{ exists c, m, z, n. split_and!; try done. left. intros u k' Hu. pose proof (Hmin' u k' Hu). unfold key_gt in Econd. rewrite Ek in *. cbn in *.
      pose proof (Hg goal). lia. }
  apply andb_true_iff in Econd as [Elt Egt]. destruct (clk n) eqn:Eclk.
  2:{ exists c, m, z, (S n). split_and!; try done; [lia|]. right. exists n. split; [lia|done]. }
  rewrite Edm. cbn [lift obind fst snd].
  assert (s <> goal) as Hsg. { intros ->. rewrite Ek in Egt. unfold key_gt in Egt. cbn in Egt. lia. }
  destruct (expand_spec G e fwd con E Hge eps call iter start c m z s k h' He Hit) as (a&c2&m2&z2&Ea&E2&I2&II2&K2&Hv2&M2&Hu2&_); try done.
  { intros Hcon. exact (se_cons _ _ _ _ _ Hse Hcon). }
  { apply (se_edge _ _ _ _ _ Hse). congruence. }
  { lia. }
  unfold rdst in *. cbn [cSt]. destruct (cSt c !! s) as [b|] eqn:Eb; [|discriminate]. injection Ea as <-. cbn [obind].
  rewrite E2. cbn [obind].
  destruct (IH c2 m2 z2 (S n) I2 II2 K2 Hv2) as (c3&m3&z3&n3&E3&I3&II3&K3&Hv3&M3&Hn3&Hd3).
  { by apply M2. } { lia. }
  exists c3, m3, z3, n3. split_and!; try done; [by eapply gmono_trans|lia|].
  destruct Hd3 as [?|(j&?&?)]; [by left|right]. exists j. split; [lia|done].
Qed.

Lemma goal_bound eps call iter start c m z goal : (0 <= eps <= E)%Q -> con = true -> sees fwd con G e (Some goal) ->
  cinv call iter start None c m z -> iinv eps call iter start c m z -> kinv eps call c m -> done_at call c m goal ->
  forall C, sr (inflate eps) start goal C -> gl call c goal <= C.
Proof.
  intros He Hcon Hse I II K Hd C R.
  destruct (key_lemma G e fwd con E Hge eps call iter start c m z He Hcon (se_cons _ _ _ _ _ Hse Hcon) I II K goal C R) as [?|(u&k&Hu&Hk)]; [done|].
  pose proof (Hd u k Hu). rewrite (se_zero _ _ _ _ _ Hse Hcon goal eq_refl) in Hk.
  assert (toint (eps * inject_Z 0) = 0) as E0; [|lia].
  pose proof (toint_nonneg E eps He 0) as [T _]; [lia| |].
  - unfold inject_Z, Qlt. cbn. destruct E as [n d]. cbn. lia.
  - rewrite T. assert (eps * inject_Z 0 == 0)%Q as -> by (unfold inject_Z; ring). done.
Qed.

Lemma ImprovePath_spec clk eps call iter start goal c m z n : (0 <= eps <= E)%Q -> 0 <= iter -> 0 <= call -> sees fwd con G e (Some goal) ->
  cinv call iter start None c m z -> iinv eps call iter start c m z -> kinv eps call c m -> hvalid c -> is_Some (cSt c !! goal) ->
  exists r c' m' z' n', ImprovePath e fwd clk eps iter call (Some goal) c n = Ok (r, c', n') /\
    cinv call iter start None c' m' z' /\ iinv eps call iter start c' m' z' /\ kinv eps call c' m' /\ hvalid c' /\
    gmono call c c' /\ current call c' goal /\ (n <= n')%nat /\
    ( (r = 1 /\ gl call c' goal < INFINITECOST /\ done_at call c' m' goal) \/
      (r = 0 /\ gl call c' goal = INFINITECOST /\ done_at call c' m' goal) \/
      (r = 2 /\ exists j, (n <= j < n')%nat /\ clk j = false) ).
Proof.
  intros He Hit Hc Hse I II K Hv [a0 Ea0]. unfold ImprovePath.
  destruct (get_refresh G e fwd call iter start None c m z goal I Hv Hc) as (c1&Eg&I1&Hv1&Hcur&HL&Hp&Hpc).
  { by apply (ci_dom _ _ _ _ _ _ _ _ _ _ I goal a0). }
  assert (refresh e fwd call true c goal = Ok c1) as ->.
  { unfold GetState in Eg. rewrite Ea0 in Eg. destruct (eSize e <=? goal)%nat; [discriminate|]. exact Eg. }
  cbn [obind].
  assert (mono e fwd call c c1) as M1 by (split_and!; [intros u; rewrite HL; lia|done|done]).
  assert (iinv eps call iter start c1 m z) as II1 by (eapply iinv_mono; [exact II|exact M1|auto|auto]).
  assert (kinv eps call c1 m) as K1 by (intros u k Hk; rewrite HL; by apply K).
  destruct (improve_loop_spec clk eps call iter start goal He Hit Hc Hse (S (S (eSize e))) c1 m z n I1 II1 K1 Hv1 Hcur)
    as (c2&m2&z2&n2&E2&I2&II2&K2&Hv2&M2&Hn2&Hd2).
  { unfold AraProofs.unclosed. assert (length (filter (λ s, il call c1 s ≠ iter) (seq 0 (eSize e))) <= length (seq 0 (eSize e)))%nat by apply filter_length.
    rewrite seq_length in *. lia. }
  rewrite E2. cbn [obind fst snd].
  assert (current call c2 goal) as Hcur2 by by apply M2.
  rewrite (rdst_current e fwd call c2 goal Hcur2). cbn [obind].
  assert (gmono call c c2) as M by (eapply gmono_trans; [by apply mono_gmono|done]).
  pose proof (ci_g _ _ _ _ _ _ _ _ _ _ I2 goal) as Hg.
  destruct (decide (m2 = ∅)) as [->|Hne].
  - pose proof (proj1 (rep_empty_cur _ _ (ci_rep _ _ _ _ _ _ _ _ _ _ I2)) eq_refl) as H0.
    unfold getminkeyheap, emptyheap. rewrite H0. cbn [Nat.eqb lift obind negb andb].
    assert (done_at call c2 ∅ goal) by (intros u k; by rewrite lookup_empty).
    eexists _, c2, ∅, z2, n2. split; [reflexivity|]. split_and!; try done.
    destruct (gl call c2 goal =? INFINITECOST) eqn:Ei; cbn [andb].
    + right. left. split_and!; try done. lia.
    + left. split_and!; try done. lia.
  - destruct (getmin_spec ckeyops ckeylaws _ m2 (ci_rep _ _ _ _ _ _ _ _ _ _ I2) (ci_ord _ _ _ _ _ _ _ _ _ _ I2) Hne) as (s&k&_&Emk&Hk&Hmin).
    rewrite Emk. cbn [lift obind].
    assert (emptyheap (cOpen c2) = false) as Eem.
    { unfold emptyheap. pose proof (proj2 (rep_empty_cur _ _ (ci_rep _ _ _ _ _ _ _ _ _ _ I2))) as Hx.
      destruct (cur (cOpen c2) =? 0)%nat eqn:E0; [|done]. exfalso. apply Hne, Hx. lia. }
    rewrite Eem. cbn [negb andb]. rewrite andb_false_r, andb_true_r.
    assert (k1 k = 0) as Hk1 by by eapply (ci_k1 _ _ _ _ _ _ _ _ _ _ I2).
    assert (key_gt (mkKey (gl call c2 goal) 0) k = false -> done_at call c2 m2 goal) as Hdone.
    { intros Hgt u k' Hu. assert (k0 k <= k0 k') by (apply kle_k0; [by eapply Hmin|done|by eapply (ci_k1 _ _ _ _ _ _ _ _ _ _ I2)]).
      unfold key_gt in Hgt. cbn in Hgt. lia. }
    eexists _, c2, m2, z2, n2. split; [reflexivity|]. split_and!; try done.
    destruct (key_gt (mkKey (gl call c2 goal) 0) k) eqn:Egt; cbn [andb negb].
    + right. right. split; [done|]. destruct Hd2 as [Hd2|?]; [|done]. exfalso. pose proof (Hd2 s k Hk). unfold key_gt in Egt. cbn in Egt. lia.
    + destruct (gl call c2 goal =? INFINITECOST) eqn:Ei.
      * right. left. split_and!; [done|lia|auto].
      * left. split_and!; [done|lia|auto].
Qed.

(** Moving INCONS into OPEN. *)
Lemma build_spec eps call iter start z : forall c m, cinv call iter start None c m z -> hvalid c ->
  exists c' m', build_loop (length z) eps c = Ok c' /\ cinv call iter start None c' m' [] /\ cSt c' = cSt c /\
    (kinv eps call c m -> kinv eps call c' m').
Proof.
  induction z as [|[ad s] z IH]; intros c m I Hv; cbn [build_loop length].
  - rewrite (getfirst_spec _ _ (ci_lrep _ _ _ _ _ _ _ _ _ _ I)). cbn. by exists c, m.
  - rewrite (getfirst_spec _ _ (ci_lrep _ _ _ _ _ _ _ _ _ _ I)). cbn [fmap list_fmap head lift obind snd].
    assert (inz ((ad, s) :: z) s) as Hin by (rewrite fmap_cons; by left).
    assert (m !! s = None) as Hm. { destruct (m !! s) eqn:Em; [|done]. exfalso. by apply (ci_disj _ _ _ _ _ _ _ _ _ _ I s); [eauto|]. }
    assert (gl call c s < vl call c s) as Hlt by (apply (ci_inc _ _ _ _ _ _ _ _ _ _ I); auto).
    pose proof (ci_g _ _ _ _ _ _ _ _ _ _ I s) as Hg.
    rewrite (rdst_finite e fwd call c s) by (left; lia). cbn [obind].
    destruct (insertheap_spec ckeyops ckeylaws (cOpen c) m s (fkey eps (sG (lk call c s)) (sH (lk call c s)))) as (h'&Eh&Rh&Oh);
      [apply I|apply I|done| |].
    { eapply heap_room; [done|]. eapply cinv_size; done. }
    rewrite Eh. cbn [lift obind].
    destruct (list_remove_spec (cInc c) [] ad s z (ci_lrep _ _ _ _ _ _ _ _ _ _ I)) as (l'&El&Ll).
    rewrite El. cbn [lift obind].
    assert (~ inz z s) as Hnz.
    { pose proof (ci_lrep _ _ _ _ _ _ _ _ _ _ I) as (_&_&_&_&_&Hnd&_). rewrite fmap_cons in Hnd. by apply NoDup_cons in Hnd as [? _]. }
    destruct (IH (mkCore (cSt c) h' l') (<[s := fkey eps (sG (lk call c s)) (sH (lk call c s))]> m)) as (c'&m'&E'&I'&Es'&Hk').
    { destruct I. split; try done.
      - intros u k. destruct (decide (u = s)) as [->|?]; [rewrite lookup_insert; by intros [= <-]|rewrite lookup_insert_ne by done; eauto].
      - intros u. change (lk call (mkCore (cSt c) h' l') u) with (lk call c u). rewrite ci_inc, fmap_cons, elem_of_cons. cbn [snd].
        destruct (decide (u = s)) as [->|?]; [rewrite lookup_insert; naive_solver|rewrite lookup_insert_ne by done; naive_solver].
      - intros u. destruct (decide (u = s)) as [->|?]; [done|rewrite lookup_insert_ne by done]. intros Hu Hz. apply (ci_disj u Hu).
        rewrite fmap_cons. by right. }
    { done. }
    exists c', m'. rewrite E'. split_and!; try done.
    intros K. apply Hk'. intros u k. change (lk call (mkCore (cSt c) h' l') u) with (lk call c u).
    destruct (decide (u = s)) as [->|?]; [rewrite lookup_insert; intros [= <-]|rewrite lookup_insert_ne by done; apply K].
    by rewrite (lk_H e fwd call c s Hv).
Qed.

Lemma fvals_spec eps call iter start c m z : cinv call iter start None c m z -> hvalid c ->
  exists c' m', Reevaluatefvals eps c = Ok c' /\ cinv call iter start None c' m' z /\ kinv eps call c' m' /\ cSt c' = cSt c /\
    (forall s, is_Some (m' !! s) <-> is_Some (m !! s)) /\ cInc c' = cInc c.
Proof.
  intros I Hv. unfold Reevaluatefvals.
  set (f := fun s (k : ckey) => match cSt c !! s with Some a => mkKey (k0 (fkey eps (sG a) (sH a))) (k1 k) | None => k end).
  destruct (rekey_spec f (cOpen c) m (ci_rep _ _ _ _ _ _ _ _ _ _ I)) as (h1&E1&R1). rewrite E1. cbn [lift obind].
  destruct (makeheap_spec ckeyops ckeylaws h1 _ R1) as (h2&E2&R2&O2). rewrite E2. cbn [lift obind].
  set (m' := map_imap (λ s k, Some (f s k)) m) in *.
  assert (forall s, m' !! s = f s <$> m !! s) as Hm'.
  { intros s. unfold m'. rewrite map_lookup_imap. by destruct (m !! s). }
  assert (forall s, is_Some (m' !! s) <-> is_Some (m !! s)) as Hd by (intros s; by rewrite Hm', fmap_is_Some).
  assert (forall s k, m' !! s = Some k -> k = fkey eps (gl call c s) (H s)) as HK.
  { intros s k Hs. rewrite Hm' in Hs. destruct (m !! s) as [k'|] eqn:Em; [|discriminate]. injection Hs as <-.
    assert (gl call c s < vl call c s) as Hlt by (apply (ci_inc _ _ _ _ _ _ _ _ _ _ I); eauto).
    pose proof (ci_g _ _ _ _ _ _ _ _ _ _ I s) as Hg.
    destruct (lk_finite e fwd call c s) as (a&Ea&_&El); [left; lia|]. unfold f. rewrite Ea.
    rewrite (ci_k1 _ _ _ _ _ _ _ _ _ _ I s k' Em). rewrite El. rewrite (Hv s a Ea). done. }
  exists (mkCore (cSt c) h2 (cInc c)), m'. split_and!; try done.
  destruct I. split; try done.
  - intros s k Hk. by rewrite (HK s k Hk).
  - intros s. rewrite Hd. apply ci_inc.
  - intros s. rewrite Hd. apply ci_disj.
Qed.
End search.
