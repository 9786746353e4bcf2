From Coq Require Import ZifyBool ZifyNat QArith Qround Lqa.
From Verif Require Import Base KeyModel HeapModel HeapProofs ListModel ListProofs AngleModel AngleProofs AraModel AraSpec AraProofs AraPath AraProofs7 AnaModel AnaSpec.
Local Open Scope Z_scope.

Section search.
Context (G : nat -> list (nat * Z)) (e : aenv) (fwd con : bool).
Context (Hge : good_env fwd 1 G e).
Notation lk := (lk e fwd).
Notation H s := (heur fwd e s).
Notation gl call c s := (sG (lk call c s)).
Notation vl call c s := (sV (lk call c s)).
Notation sr := (sr G (fun c => c)).
Notation mono := (mono e fwd).
Notation gmono := (gmono e fwd).

Lemma H_range s : 0 <= H s < 2147483648.
Proof.
  pose proof (ge_heur _ _ _ _ Hge s). pose proof (ge_heurE _ _ _ _ Hge s) as HE. split; [done|].
  rewrite Zlt_Qlt. rewrite Qmult_1_l in HE. done.
Qed.
Lemma edge_ok s t w : (t, w) ∈ G s -> (t < eSize e)%nat /\ 0 < w <= INFINITECOST.
Proof. apply (ge_edge _ _ _ _ Hge). Qed.

Record ainv (call : Z) (start goal : nat) (GG : Z) (pend : option (nat * list (nat * Z))) (c : core) (m : gmap nat ckey) : Prop := {
  ai_rep : rep (cOpen c) m;
  ai_ord : ord ckeyops 1 (cOpen c);
  ai_dom : forall s a, cSt c !! s = Some a -> (s < eSize e)%nat /\ 0 <= sCall a <= call;
  ai_h : forall s, sH (lk call c s) = H s;
  ai_g : forall s, 0 <= gl call c s <= vl call c s /\ vl call c s <= INFINITECOST;
  ai_heap : forall s, is_Some (m !! s) -> gl call c s < vl call c s;
  ai_start : gl call c start = 0;
  ai_back : forall s, gl call c s < INFINITECOST -> s <> start -> exists p w, lB fwd (lk call c s) = Some p /\ (s, w) ∈ G p /\
    vl call c p < INFINITECOST /\ vl call c p + w <= gl call c s;
  ai_gv : vl call c goal = INFINITECOST;
  ai_edge : forall s t w, vl call c s < INFINITECOST -> (t, w) ∈ G s -> gl call c t <= vl call c s + w \/
    GG <= vl call c s + w + H t \/ exists l, pend = Some (s, l) /\ (t, w) ∈ l;
  ai_closed : forall s, gl call c s < INFINITECOST -> m !! s = None -> vl call c s = gl call c s \/ GG <= gl call c s + H s;
  ai_GG : gl call c goal <= GG <= INFINITECOST
}.
Definition inb (m : gmap nat ckey) (goal : nat) : Z := if m !! goal then 1 else 0.
Lemma inb_range m g : 0 <= inb m g <= 1.
Proof. unfold inb. destruct (m !! g); lia. Qed.

Lemma ainv_GG call start goal GG GG' pend c m : ainv call start goal GG pend c m -> gl call c goal <= GG' <= GG ->
  ainv call start goal GG' pend c m.
Proof.
  intros I HG. destruct I. split; try done; [|..|lia].
  - intros s t w Hs Ht. destruct (ai_edge0 s t w Hs Ht) as [?|[?|?]]; [auto|right; left; lia|auto].
  - intros s Hs Hm. destruct (ai_closed0 s Hs Hm) as [?|?]; [auto|right; lia].
Qed.
Lemma ainv_size call start goal GG pend c m : ainv call start goal GG pend c m -> (size m <= eSize e)%nat.
Proof.
  intros I. rewrite <- (size_dom (D := gset nat) m), <- (size_set_seq (C := gset nat) 0 (eSize e)). apply subseteq_size.
  intros s Hs. apply elem_of_dom in Hs. pose proof (ai_heap _ _ _ _ _ _ _ I s Hs). pose proof (ai_g _ _ _ _ _ _ _ I s).
  destruct (lk_finite e fwd call c s) as (a&Ea&_); [lia|]. apply elem_of_set_seq. pose proof (ai_dom _ _ _ _ _ _ _ I s a Ea). lia.
Qed.
Lemma ainv_room call start goal GG pend c m : ainv call start goal GG pend c m -> Z.of_nat (size m) <> HEAPSIZE - 1.
Proof. intros I. pose proof (ainv_size _ _ _ _ _ _ _ I). pose proof (ge_size _ _ _ _ Hge). unfold HEAPSIZE. lia. Qed.

(** Reinitialization of a state that is not current. *)
Lemma anot_current call start goal GG pend c m t : ainv call start goal GG pend c m -> ~ current call c t -> m !! t = None.
Proof.
  intros I Hn. destruct (m !! t) eqn:Em; [|done]. exfalso. apply Hn.
  pose proof (ai_heap _ _ _ _ _ _ _ I t ltac:(eauto)). pose proof (ai_g _ _ _ _ _ _ _ I t).
  destruct (lk_finite e fwd call c t) as (a&?&?&_); [lia|]. by exists a.
Qed.
Lemma reinit_ainv call start goal GG pend c m t : ainv call start goal GG pend c m -> ~ current call c t -> (t < eSize e)%nat ->
  0 <= call -> ainv call start goal GG pend (ReInitializeSearchStateInfo e fwd call true c t) m.
Proof.
  intros I Hn Ht Hc. pose proof (anot_current _ _ _ _ _ _ _ t I Hn) as Hm.
  pose proof (fun s => reinit_lk e fwd call c t s Hn) as HL. destruct I. split; try (intros; rewrite ?HL in *; eauto; fail).
  - by apply idx_rep.
  - intros s a Hs. simpl in Hs. destruct (decide (s = t)) as [->|Hst].
    + rewrite lookup_insert in Hs. injection Hs as <-. simpl. lia.
    + rewrite lookup_insert_ne in Hs by done. eauto.
  - intros s. rewrite HL. intros Hg Hs. destruct (ai_back0 s Hg Hs) as (p&w&?&?&?&?). exists p, w. rewrite HL. done.
Qed.
Lemma aget_refresh call start goal GG pend c m t : ainv call start goal GG pend c m -> 0 <= call -> (t < eSize e)%nat ->
  exists c', (do c <- GetState e fwd call true c t; refresh e fwd call true c t) = Ok c' /\
    ainv call start goal GG pend c' m /\ current call c' t /\ (forall s, lk call c' s = lk call c s) /\ 
    (forall s, is_Some (cSt c !! s) -> is_Some (cSt c' !! s)) /\ (forall s, current call c s -> current call c' s).
Proof.
  intros I Hc Ht. unfold GetState. destruct (eSize e <=? t)%nat eqn:Et; [lia|].
  destruct (current_dec call c t) as [(a&Ea&Eac)|Hn].
  - exists c. rewrite Ea. cbn [obind]. rewrite refresh_eq, Ea. replace (sCall a =? call) with true by lia. split_and!; try done.
    by exists a.
  - set (c1 := ReInitializeSearchStateInfo e fwd call true c t). exists c1.
    assert (current call c1 t) as Hcur. { exists (fresh_info e fwd call true t). simpl. by rewrite lookup_insert. }
    assert ((do c <- (match cSt c !! t with Some _ => Ok c | None => Ok c1 end); refresh e fwd call true c t) = Ok c1) as ->.
    { destruct (cSt c !! t) as [a|] eqn:Ea; cbn [obind].
      - rewrite refresh_eq, Ea. destruct (sCall a =? call) eqn:Ec; [|done]. exfalso. apply Hn. exists a. split; [done|lia].
      - rewrite refresh_eq. unfold c1. simpl. rewrite lookup_insert. simpl. by rewrite Z.eqb_refl. }
    split_and!; [done|by apply reinit_ainv|done|intros s; by apply reinit_lk| |].
    + intros s Hs. simpl. destruct (decide (s = t)) as [->|?]; [rewrite lookup_insert; eauto|by rewrite lookup_insert_ne].
    + intros s Hs. destruct (decide (s = t)) as [->|?]; [done|]. destruct Hs as (b&Eb&Ebc). exists b. simpl. by rewrite lookup_insert_ne.
Qed.

Lemma arelax_spec GG iter call start goal s t w ns c m :
  ainv call start goal GG (Some (s, (t, w) :: ns)) c m -> 0 <= call -> vl call c s < INFINITECOST -> gl call c s = vl call c s ->
  (t, w) ∈ G s ->
  exists c' m', arelax e fwd GG iter call s c (t, w) = Ok c' /\
    ainv call start goal GG (Some (s, ns)) c' m' /\ mono call c c' /\ gl call c' s = gl call c s /\
    gl call c' goal + inb m' goal <= gl call c goal + inb m goal.
Proof.
  intros I Hc Hvs Hgs Hin. destruct (edge_ok s t w Hin) as [Ht Hw].
  destruct (aget_refresh call start goal GG _ c m t I Hc Ht) as (c1&Eg&I1&Hcur&HL&Hp&Hpc).
  assert (mono call c c1) as M1 by (split_and!; [intros u; rewrite HL; lia|done|done]).
  rewrite <- (HL s) in Hvs, Hgs. rewrite <- (HL s), <- (HL goal).
  unfold arelax. cbn [fst snd]. destruct (GetState e fwd call true c t) as [c0| | |] eqn:E0; try discriminate. cbn [obind] in Eg |- *.
  rewrite Eg. cbn [obind]. rewrite (rdst_current e fwd call c1 t Hcur), (rdst_finite e fwd call c1 s) by auto. cbn [obind].
  pose proof (ai_g _ _ _ _ _ _ _ I1) as Hg. pose proof (ai_h _ _ _ _ _ _ _ I1 t) as Eh. rewrite Eh.
  pose proof (H_range t) as Hht.
  assert (u32 (gl call c1 s + w) = gl call c1 s + w) as Eu.
  { unfold u32. apply Z.mod_small. pose proof (Hg s). unfold INFINITECOST in *. lia. }
  rewrite Eu.
  assert (u32 (gl call c1 s + w + H t) = gl call c1 s + w + H t) as Eu2.
  { unfold u32. apply Z.mod_small. pose proof (Hg s). unfold INFINITECOST in *. lia. }
  rewrite Eu2.
  destruct ((gl call c1 t >? gl call c1 s + w) && (gl call c1 s + w + H t <? GG)) eqn:Egt.
  2:{ exists c1, m. split_and!; try done. destruct I1. split; try done. intros u x wx Hu Hx.
      destruct (ai_edge0 u x wx Hu Hx) as [?|[?|(l&[= <- <-]&Hl)]]; [auto|auto|].
      apply elem_of_cons in Hl as [[= -> ->]|Hl]; [|eauto]. lia. }
  apply andb_true_iff in Egt as [Egt Eprune].
  set (a' := if fwd then _ else _).
  assert (sV a' = vl call c1 t /\ sG a' = gl call c1 s + w /\ sIter a' = sIter (lk call c1 t) /\ sCall a' = call /\ lB fwd a' = Some s /\ sH a' = H t)
    as (EV&EG&EI&EC&EB&EH).
  { unfold a', lB. pose proof (lk_call e fwd call c1 t). rewrite <- Eh. destruct fwd; simpl; split_and!; done. }
  clearbody a'. cbn [cOpen set_st].
  destruct (heap_set (cOpen c1) m t (e_key GG (gl call c1 s + w) (H t))) as (h'&E1&Rh&Oh); [apply I1|apply I1|by eapply ainv_room|].
  rewrite E1. cbn [lift obind].

  eexists _, (<[t := e_key GG (gl call c1 s + w) (H t)]> m). split; [reflexivity|].
  change (cInc (set_st c1 t a')) with (cInc c1).
  assert (forall u, lk call (mkCore (cSt (set_st c1 t a')) h' (cInc c1)) u = if decide (u = t) then a' else lk call c1 u) as HL2.
  { intros u. by apply lk_set. }
  assert (t <> s) as Hts by (intros ->; lia).
  assert (forall u, vl call (mkCore (cSt (set_st c1 t a')) h' (cInc c1)) u = vl call c1 u) as HV.
  { intros u. rewrite HL2. destruct (decide (u = t)) as [->|?]; done. }
  assert (forall u, gl call (mkCore (cSt (set_st c1 t a')) h' (cInc c1)) u <= gl call c1 u) as HG.
  { intros u. rewrite HL2. destruct (decide (u = t)) as [->|?]; lia. }
  destruct Hcur as (a0&Ea0&Eac0).
  remember (mkCore (cSt (set_st c1 t a')) h' (cInc c1)) as c2 eqn:Ec2.
  assert (cSt c2 = <[t := a']> (cSt c1) /\ cOpen c2 = h') as (F1&F2) by (by rewrite Ec2).
  assert (mono call c1 c2) as M2.
  { subst c2. split_and!.
    - intros u. rewrite HV. pose proof (HG u). split_and!; try done. rewrite HL2. by destruct (decide (u = t)) as [->|?].
    - intros u. apply set_present.
    - intros u. by apply set_current. }
  split_and!.
  2:{ exact (mono_trans e fwd call c c1 c2 M1 M2). }
  2:{ by rewrite HL2, decide_False by done. }
  2:{ rewrite HL2. unfold inb. destruct (decide (goal = t)) as [<-|?].
      - rewrite lookup_insert. destruct (m !! goal); lia.
      - rewrite lookup_insert_ne by done. lia. }
  clear Ec2. destruct I1. split; rewrite ?F2; try done.
  - intros u a Hu. rewrite F1 in Hu. destruct (decide (u = t)) as [->|Hut].
    + rewrite lookup_insert in Hu. injection Hu as <-. destruct (ai_dom0 t a0 Ea0). split; [done|]. lia.
    + rewrite lookup_insert_ne in Hu by done. eauto.
  - intros u. rewrite HL2. by destruct (decide (u = t)) as [->|?].
  - intros u. rewrite HV. destruct (ai_g0 u) as [? ?]. split; [|done]. rewrite HL2. destruct (decide (u = t)) as [->|?]; [|done].
    rewrite EG. pose proof (ai_g0 s). lia.
  - intros u. rewrite HV, HL2. destruct (decide (u = t)) as [->|?].
    + intros _. pose proof (ai_g0 t). lia.
    + rewrite lookup_insert_ne by done. apply ai_heap0.
  - rewrite HL2. destruct (decide (start = t)) as [<-|?]; [|done]. pose proof (ai_g0 s). lia.
  - intros u. rewrite HL2. destruct (decide (u = t)) as [->|?].
    + intros _ _. exists s, w. rewrite EB, EG, HV. split_and!; try done; lia.
    + intros Hu Hus. destruct (ai_back0 u Hu Hus) as (p&w'&?&?&?&?). exists p, w'. by rewrite HV.
  - by rewrite HV.
  - intros u x wx. rewrite HV. intros Hu Hx. destruct (ai_edge0 u x wx Hu Hx) as [Hle|[?|(l&[= <- <-]&Hl)]].
    + left. pose proof (HG x). lia.
    + auto.
    + apply elem_of_cons in Hl as [[= -> ->]|Hl].
      * left. rewrite HL2, decide_True by done. lia.
      * right. right. eauto.
  - intros u. rewrite HV, HL2. destruct (decide (u = t)) as [->|?]; [by rewrite lookup_insert|]. rewrite lookup_insert_ne by done. apply ai_closed0.
  - pose proof (HG goal). lia.
Qed.

Lemma arelax_all_spec GG iter call start goal s ns : forall c m,
  ainv call start goal GG (Some (s, ns)) c m -> 0 <= call -> vl call c s < INFINITECOST -> gl call c s = vl call c s ->
  (forall tw, tw ∈ ns -> tw ∈ G s) ->
  exists c' m', arelax_all e fwd GG iter call s ns c = Ok c' /\
    ainv call start goal GG None c' m' /\ mono call c c' /\
    gl call c' goal + inb m' goal <= gl call c goal + inb m goal.
Proof.
  induction ns as [|[t w] ns IH]; intros c m I Hc Hs Hgs Hns; cbn [arelax_all].
  - exists c, m. split_and!; try done. destruct I. split; try done. intros u x wx Hu Hx.
    destruct (ai_edge0 u x wx Hu Hx) as [?|[?|(l&[= <- <-]&Hl)]]; [auto|auto|]. by apply elem_of_nil in Hl.
  - destruct (arelax_spec GG iter call start goal s t w ns c m I Hc Hs Hgs) as (c1&m1&E1&I1&M1&Eg1&Hb1).
    { apply Hns. by left. }
    rewrite E1. cbn [obind]. pose proof M1 as (M1'&_&_). destruct (M1' s) as (Ev&_&_).
    destruct (IH c1 m1 I1 Hc) as (c2&m2&E2&I2&M2&Hb2); [by rewrite Ev|by rewrite Eg1, Ev| |].
    { intros tw Htw. apply Hns. by right. }
    exists c2, m2. split_and!; try done; [by eapply mono_trans|lia].
Qed.

(** Sum of the v-values. *)
Definition sumv (call : Z) (c : core) : Z := foldr (fun u acc => vl call c u + acc) 0 (seq 0 (eSize e)).
Definition meas (call : Z) (goal : nat) (c : core) (m : gmap nat ckey) : Z := sumv call c + gl call c goal + inb m goal.
Lemma sum_le (f g : nat -> Z) l : (forall u, f u <= g u) -> foldr (fun u acc => f u + acc) 0 l <= foldr (fun u acc => g u + acc) 0 l.
Proof. intros Hfg. induction l as [|u l IH]; cbn; [lia|]. pose proof (Hfg u). lia. Qed.
Lemma sum_lt (f g : nat -> Z) l s : (forall u, f u <= g u) -> s ∈ l -> f s < g s ->
  foldr (fun u acc => f u + acc) 0 l < foldr (fun u acc => g u + acc) 0 l.
Proof.
  intros Hfg Hs Hlt. induction l as [|u l IH]; [by apply elem_of_nil in Hs|]. cbn. apply elem_of_cons in Hs as [->|Hs].
  - pose proof (sum_le f g l Hfg). lia.
  - pose proof (Hfg u). specialize (IH Hs). lia.
Qed.
Lemma sum_bound (f : nat -> Z) n k i : (forall u, 0 <= f u <= k) -> 0 <= foldr (fun u acc => f u + acc) 0 (seq i n) <= Z.of_nat n * k.
Proof. intros Hf. revert i. induction n as [|n IH]; intros i; cbn; [lia|]. pose proof (Hf i). specialize (IH (S i)). lia. Qed.
Lemma meas_bound call start goal GG c m : ainv call start goal GG None c m ->
  0 <= meas call goal c m <= (Z.of_nat (eSize e) + 1) * INFINITECOST + 1.
Proof.
  intros I. unfold meas, sumv. pose proof (ai_g _ _ _ _ _ _ _ I) as Hg. pose proof (Hg goal). pose proof (inb_range m goal).
  pose proof (sum_bound (fun u => vl call c u) (eSize e) INFINITECOST 0) as Hb.
  assert (forall u, 0 <= vl call c u <= INFINITECOST) as Hv by (intros u; specialize (Hg u); lia). specialize (Hb Hv). lia.
Qed.

Lemma aexpand_spec GG iter call start goal c m s k h' :
  nbrs e fwd s = G s -> s <> goal -> ainv call start goal GG None c m -> 0 <= call ->
  m !! s = Some k -> rep h' (delete s m) -> ord ckeyops 1 h' ->
  exists a c' m', rdst c s = Ok a /\
    arelax_all e fwd GG iter call s (nbrs e fwd s)
      (set_st (mkCore (cSt c) h' (cInc c)) s (mkA (sG a) (sG a) iter (sCall a) (sPred a) (sNext a) (sCostNext a) (sH a))) = Ok c' /\
    ainv call start goal GG None c' m' /\ gmono call c c' /\ meas call goal c' m' < meas call goal c m.
Proof.
  intros Hnb Hsg I Hc Hk Rh Oh. pose proof (ai_g _ _ _ _ _ _ _ I) as Hg.
  pose proof (ai_heap _ _ _ _ _ _ _ I s ltac:(eauto)) as Hlt.
  assert (gl call c s < INFINITECOST) as Hfin by (pose proof (Hg s); lia).
  destruct (lk_finite e fwd call c s) as (a&Ea&Eac&Ela); [auto|].
  set (a' := mkA (sG a) (sG a) iter (sCall a) (sPred a) (sNext a) (sCostNext a) (sH a)).
  set (c2 := set_st (mkCore (cSt c) h' (cInc c)) s a').
  assert (forall u, lk call c2 u = if decide (u = s) then a' else lk call c u) as HL.
  { intros u. change (lk call c u) with (lk call (mkCore (cSt c) h' (cInc c)) u). by apply lk_set. }
  assert (forall u, gl call c2 u = gl call c u) as HG. { intros u. rewrite HL. destruct (decide (u = s)) as [->|?]; [by rewrite Ela|done]. }
  assert (forall u, lB fwd (lk call c2 u) = lB fwd (lk call c u)) as HB. { intros u. rewrite HL. destruct (decide (u = s)) as [->|?]; [by rewrite Ela|done]. }
  assert (forall u, vl call c2 u <= vl call c u) as HV.
  { intros u. rewrite HL. destruct (decide (u = s)) as [->|?]; [|done]. pose proof (Hg s). rewrite Ela in *. cbn. lia. }
  assert (vl call c2 s = gl call c s) as HVs by (rewrite HL, decide_True by done; cbn; by rewrite Ela).
  assert (ainv call start goal GG (Some (s, G s)) c2 (delete s m)) as I2.
  { split; try done; try (intros; rewrite ?HG, ?HB in *; by apply I).
    - intros u b Hu. unfold c2 in Hu. cbn in Hu. destruct (decide (u = s)) as [->|?].
      + rewrite lookup_insert in Hu. injection Hu as <-. by apply (ai_dom _ _ _ _ _ _ _ I s a).
      + rewrite lookup_insert_ne in Hu by done. by apply (ai_dom _ _ _ _ _ _ _ I u b).
    - intros u. rewrite HL. destruct (decide (u = s)) as [->|?]; [|apply I]. cbn. rewrite <- Ela. apply I.
    - intros u. rewrite HG. rewrite HL. pose proof (Hg u). destruct (decide (u = s)) as [->|?]; [|done]. rewrite Ela in *. cbn. lia.
    - intros u. rewrite HG, HL. destruct (decide (u = s)) as [->|?].
      + rewrite lookup_delete. by intros [? [=]].
      + rewrite lookup_delete_ne by done. apply I.
    - intros u. rewrite HG, HB. intros Hu Hus. destruct (ai_back _ _ _ _ _ _ _ I u Hu Hus) as (p&w&?&?&?&?). exists p, w.
      pose proof (HV p). split_and!; try done; lia.
    - rewrite HL, decide_False by done. apply I.
    - intros u t w. rewrite HG. rewrite HL. destruct (decide (u = s)) as [->|?]; [intros; right; right; eauto|].
      intros Hu Ht. destruct (ai_edge _ _ _ _ _ _ _ I u t w Hu Ht) as [?|[?|(l&[=]&_)]]; auto.
    - intros u. rewrite HG, HL. destruct (decide (u = s)) as [->|?].
      + intros _ _. left. cbn. by rewrite Ela.
      + rewrite lookup_delete_ne by done. apply I. }
  destruct (arelax_all_spec GG iter call start goal s (nbrs e fwd s) c2 (delete s m)) as (c3&m3&E3&I3&M3&Hb3); try done.
  { by rewrite Hnb. }
  { by rewrite HVs. }
  { by rewrite HVs, HG. }
  { intros tw. by rewrite Hnb. }
  exists a, c3, m3. split_and!; try done.
  - unfold rdst. by rewrite Ea.
  - apply (gmono_trans _ _ _ _ c2); [|by apply mono_gmono]. split_and!.
    + intros u. rewrite HG. lia.
    + intros u. apply (set_present (mkCore (cSt c) h' (cInc c)) s a' u h' (cInc c)).
    + intros u. by apply (set_current call (mkCore (cSt c) h' (cInc c)) s a' u h' (cInc c)).
  - unfold meas. assert (inb (delete s m) goal = inb m goal) as Eb by (unfold inb; by rewrite lookup_delete_ne by done).
    rewrite Eb, HG in Hb3. assert (sumv call c3 < sumv call c); [|lia].
    unfold sumv. apply (sum_lt (fun u => vl call c3 u) (fun u => vl call c u) _ s).
    + intros u. destruct M3 as (M3&_). destruct (M3 u) as (->&_). apply HV.
    + apply elem_of_seq. pose proof (proj1 (ai_dom _ _ _ _ _ _ _ I s a Ea)). lia.
    + destruct M3 as (M3&_). destruct (M3 s) as (->&_). lia.
Qed.
End search.
