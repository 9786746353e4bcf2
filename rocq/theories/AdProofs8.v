(** AD*: changed edge costs. *)
From Coq Require Import ZifyBool ZifyNat QArith Qround Lqa.
From Verif Require Import Base KeyModel HeapModel HeapProofs ListModel ListProofs ListSpec AngleModel AngleProofs AraModel AraSpec AraProofs AraPath AraProofs3 AraProofs4 AdModel AdSpec AdAbs AdProofs AdProofs2 AdProofs3 AdPath AdProofs4 AdProofs5 AdProofs6 AdProofs7.
Local Open Scope Z_scope.

Section upd.
Context (G : nat -> list (nat * Z)) (e : aenv) (fwd : bool) (E : Q) (Hge : good_env fwd E G e).
Context (p : ara) (st : nat) (Hfwd : aFwd p = fwd) (Hst : aStart p = Some st) (Hit : 0 < aIter p).
Context (Hprev : forall t q w, t <> st -> (q, w) ∈ sprev e fwd t -> (q < eSize e)%nat /\ 0 < w <= INFINITECOST).
Notation call := (aCall p).
Notation iter := (aIter p).
Notation lkc := (lk e fwd call).
Notation bp a := (get_bp fwd a).
Definition recomputed (L : nat -> astate) (a : astate) (x : nat) : Prop :=
  (forall q w, (q, w) ∈ sprev e fwd x -> sG a <= sV (L q) + w) /\ 0 <= sG a <= INFINITECOST /\
  (sG a = INFINITECOST \/ exists q w, (q, w) ∈ sprev e fwd x /\ bp a = Some q /\ sG a = sV (L q) + w).
Lemma update_states_spec l : forall c m z aff, dat e fwd false call iter None c m z -> (forall x, 0 <= sV (lkc c x) <= INFINITECOST) ->
  Forall (fun t => (t < eSize e)%nat) l ->
  exists c' m' z' aff', update_states e p l c aff = Ok (c', aff') /\ dat e fwd false call iter None c' m' z' /\
    (forall x, is_Some (cSt c !! x) -> is_Some (cSt c' !! x)) /\ (forall x, current call c x <-> current call c' x) /\
    (forall x, sV (lkc c' x) = sV (lkc c x) /\ sIter (lkc c' x) = sIter (lkc c x)) /\
    (forall x, x ∉ l \/ x = st \/ ~ current call c x -> lkc c' x = lkc c x) /\
    (forall x, x ∈ l -> x <> st -> current call c x -> recomputed (lkc c) (lkc c' x) x) /\
    (aff' = false -> aff = false /\ forall x, x ∈ l -> x <> st -> ~ current call c x).
Proof using Hge Hfwd Hst Hit Hprev.
  induction l as [|s l IH]; intros c m z aff D HV Hl.
  - exists c, m, z, aff. split; [done|]. do 5 (split; [done|]). split; [by intros x Hx%elem_of_nil|]. intros Hf. split; [done|]. by intros x Hx%elem_of_nil.
  - apply Forall_cons in Hl as [Hs Hl]. cbn [update_states]. destruct (eSize e <=? s)%nat eqn:Es; [lia|].
    assert (forall c' m' z' aff', update_states e p l c aff = Ok (c', aff') -> (s = st \/ ~ current call c s) ->
       dat e fwd false call iter None c' m' z' /\
       (forall x, is_Some (cSt c !! x) -> is_Some (cSt c' !! x)) /\ (forall x, current call c x <-> current call c' x) /\
       (forall x, sV (lkc c' x) = sV (lkc c x) /\ sIter (lkc c' x) = sIter (lkc c x)) /\
       (forall x, x ∉ l \/ x = st \/ ~ current call c x -> lkc c' x = lkc c x) /\
       (forall x, x ∈ l -> x <> st -> current call c x -> recomputed (lkc c) (lkc c' x) x) /\
       (aff' = false -> aff = false /\ forall x, x ∈ l -> x <> st -> ~ current call c x) ->
       dat e fwd false call iter None c' m' z' /\
       (forall x, is_Some (cSt c !! x) -> is_Some (cSt c' !! x)) /\ (forall x, current call c x <-> current call c' x) /\
       (forall x, sV (lkc c' x) = sV (lkc c x) /\ sIter (lkc c' x) = sIter (lkc c x)) /\
       (forall x, x ∉ s :: l \/ x = st \/ ~ current call c x -> lkc c' x = lkc c x) /\
       (forall x, x ∈ s :: l -> x <> st -> current call c x -> recomputed (lkc c) (lkc c' x) x) /\
       (aff' = false -> aff = false /\ forall x, x ∈ s :: l -> x <> st -> ~ current call c x)) as Hskip.
    { intros c' m' z' aff' _ Hsk (D'&P'&C'&V'&U'&R'&A'). split; [done|]. split; [done|]. split; [done|]. split; [done|]. split; [|split].
      - intros x Hx. apply U'. destruct Hx as [Hx|?]; [left|by right]. intros Hin. apply Hx. by right.
      - intros x Hx Hn Hc. apply elem_of_cons in Hx as [->|Hx]; [|by apply R']. by destruct Hsk.
      - intros Hf. destruct (A' Hf) as [Ha HA]. split; [done|]. intros x Hx Hn. apply elem_of_cons in Hx as [->|Hx]; [|by apply HA]. by destruct Hsk. }
    destruct (cSt c !! s) as [a|] eqn:Ea.
    2:{ destruct (IH c m z aff D HV Hl) as (c'&m'&z'&aff'&E'&HR). exists c', m', z', aff'. split; [done|]. apply Hskip; [done| |done].
        right. intros (a&Ha&_). congruence. }
    rewrite Hst. destruct (negb (s =? st)%nat && (sCall a =? call)) eqn:Ec.
    2:{ destruct (IH c m z aff D HV Hl) as (c'&m'&z'&aff'&E'&HR). exists c', m', z', aff'. split; [done|]. apply Hskip; [done| |done].
        destruct (decide (s = st)) as [?|?]; [by left|right]. intros (b&Hb&Hbc). rewrite Ea in Hb. injection Hb as <-. 
        destruct (s =? st)%nat eqn:E1; [lia|]. cbn in Ec. lia. }
    apply andb_true_iff in Ec as [Ens Ec]. assert (s <> st) as Hns by (destruct (s =? st)%nat eqn:E1; [done|lia]).
    assert (current call c s) as Hcur by (exists a; split; [done|lia]). rewrite Hfwd.
    destruct (recompute_spec G e fwd E Hge call c s Hcur) as (a1&E1&V1&I1&C1&H1&Le1&Max1&R1); [intros q w; by apply Hprev|done|].
    rewrite E1. cbn [obind].
    pose proof (dat_set e fwd false call iter c m z s a1 D Hcur C1 I1) as D1.
    pose proof (set_current call c s a1 s (cOpen c) (cInc c) C1 Hcur) as Hcur1.
    destruct (usm_spec G e fwd E Hge false (aEps p) call iter (set_st c s a1) m z s D1 Hit Hcur1) as (c2&m2&z2&E2&S2&D2&_).
    rewrite E2. cbn [obind].
    assert (forall x, lkc c2 x = if decide (x = s) then a1 else lkc c x) as HL2.
    { intros x. rewrite (lk_st e fwd call _ c2 x S2). by apply lk_set. }
    assert (forall x, current call c x <-> current call c2 x) as HC2.
    { intros x. rewrite <- (st_current call (set_st c s a1) c2 x S2). unfold current. cbn. destruct (decide (x = s)) as [->|Hx].
      - rewrite lookup_insert. split; [|done]. intros _. exists a1. done.
      - by rewrite lookup_insert_ne. }
    assert (forall x, sV (lkc c2 x) = sV (lkc c x) /\ sIter (lkc c2 x) = sIter (lkc c x)) as HV2.
    { intros x. rewrite HL2. destruct (decide (x = s)) as [->|?]; done. }
    destruct (IH c2 m2 z2 true D2) as (c'&m'&z'&aff'&E'&D'&P'&C'&V'&U'&R'&A'); [|done|].
    { intros x. destruct (HV2 x) as [-> _]. apply HV. }
    assert (recomputed (lkc c) a1 s) as HR1.
    { split; [done|]. split; [|done]. split; [|done]. destruct R1 as [->|(q&w&Hin&_&->)]; [done|]. destruct (Hprev s q w Hns Hin). specialize (HV q). lia. }
    exists c', m', z', aff'. split; [done|]. split; [done|]. split; [|split; [|split; [|split; [|split]]]].
    + intros x Hx. apply P'. rewrite S2. cbn. destruct (decide (x = s)) as [->|?]; [rewrite lookup_insert; eauto|by rewrite lookup_insert_ne].
    + intros x. rewrite HC2. apply C'.
    + intros x. destruct (V' x) as [-> ->]. apply HV2.
    + intros x Hx. rewrite U'.
      * rewrite HL2. destruct (decide (x = s)) as [->|?]; [|done]. destruct Hx as [Hx|[?|?]]; [|done|done]. exfalso. apply Hx. by left.
      * rewrite <- HC2. destruct Hx as [Hx|?]; [left|by right]. intros Hin. apply Hx. by right.
    + intros x Hx Hn Hc. destruct (decide (x ∈ l)) as [Hin|Hin].
      * destruct (R' x Hin Hn) as (Q1&Q2&Q3); [by apply HC2|]. split; [|split; [done|]].
        -- intros q w Hq. destruct (HV2 q) as [<- _]. by apply Q1.
        -- destruct Q3 as [?|(q&w&?&?&?)]; [by left|right]. exists q, w. destruct (HV2 q) as [<- _]. done.
      * rewrite U' by (by left). apply elem_of_cons in Hx as [->|Hx]; [|done]. by rewrite HL2, decide_True.
    + intros Hf. destruct (A' Hf) as [? _]. done.
Qed.
End upd.

Section costs.
Context (fwd abs : bool) (E : Q).
Notation pinv := (dpinv fwd abs E).
#[local] Instance current_decision call c s : Decision (current call c s).
Proof.
  destruct (cSt c !! s) as [a|] eqn:Ea.
  - destruct (decide (sCall a = call)) as [?|?]; [left; by exists a|]. right. intros (b&Hb&?). congruence.
  - right. intros (b&Hb&?). congruence.
Defined.
Lemma fresh_g e call c x : sG (lk e fwd call c x) < INFINITECOST -> current call c x.
Proof.
  unfold lk, current. destruct (cSt c !! x) as [a|]; [|cbn; lia]. destruct (sCall a =? call) eqn:Ec; [|cbn; lia]. intros _. exists a. split; [done|lia].
Qed.
(** Nothing has been expanded since the last reinitialisation: the search state fits every graph. *)
Lemma sst_zero G e G' e' s g p : good_env fwd E G' e' -> (eSize e <= eSize e')%nat -> (exists m z, sst fwd abs E G e s g p m z) ->
  aIter p = 0 -> exists m z, sst fwd abs E G' e' s g (with_reeval p true) m z.
Proof.
  intros Hge Hsz (m&z&Q) Hi. exists m, z. destruct Q as [D V B I Z N C K A T]. destruct (Z Hi) as (HT&Hz&HZ).
  pose proof (fun x => env_fields fwd e e' (aCall p) (aC p) x) as HS.
  pose proof (sf_v fwd _ _ HS) as HV. pose proof (sf_g fwd _ _ HS) as HG. pose proof (sf_i fwd _ _ HS) as HI. 
  split; wcbn; try done.
  - destruct D. split; try done.
    + intros u a Ha. destruct (da_dom u a Ha). split; [lia|done].
    + intros u Hu. rewrite HV, HG. auto.
    + intros Hi' u. rewrite HI. auto.
    + intros Hb u. rewrite HI. auto.
    + intros u. rewrite HI. auto.
  - by eapply vok_sim.
  - intros u Hu. rewrite HG. destruct (HZ u) as [_ Hg]. rewrite (Hg Hu). lia.
  - intros u t w _. rewrite HV. destruct (HZ u) as [-> _]. lia.
  - intros _. split; [done|]. split; [done|]. intros u. rewrite HV, HG. auto.
  - intros Hn u. rewrite HI. auto.
  - lia.
  - intros Ha. rewrite HV. auto.
  - by left.
Qed.

Definition cpre (e : aenv) (p : ara) (l : list nat) : ara :=
  let p := if (eSize e / 10 <? length l)%nat then with_reinit p true else p in with_reeval (with_new (with_iter_incr p) true) true.
Definition cpost (p : ara) (r : core * bool) : ara :=
  let p := with_core p r.1 in if r.2 then with_sat (with_eps p (aInit p)) (inject_Z INFINITECOST) else p.
Lemma costs_eq e p l : aReinit p = false -> aIter p <> 0 ->
  ad_costs_changed e p l = (do r <- update_states e (cpre e (with_reeval p true) l) l (aC p) false; Ok (cpost (cpre e (with_reeval p true) l) r)).
Proof.
  intros Hr Hi. unfold ad_costs_changed. wcbn. rewrite Hr. cbn [orb]. destruct (aIter p =? 0) eqn:E0; [lia|]. unfold Update_SearchSuccs, cpre.
  destruct (eSize e / 10 <? length l)%nat; wcbn; done.
Qed.
Lemma cpre_rest e p l : let q := cpre e p l in aC q = aC p /\ aCall q = aCall p /\ aIter q = u16 (aIter p + 1) /\ aGoal q = aGoal p /\
  aStart q = aStart p /\ aFwd q = aFwd p /\ aFirst q = aFirst p /\ aInit q = aInit p /\ aDec q = aDec p /\ aFinal q = aFinal p /\
  aEps q = aEps p /\ aSat q = aSat p /\ aNew q = true /\ aReeval q = true /\
  aWrap q = aWrap p || (aIter p + 1 >=? 65536) /\ (aReinit q = false -> aReinit p = false).
Proof. unfold cpre. destruct (eSize e / 10 <? length l)%nat; wcbn; split_and!; done. Qed.
Lemma cpost_rest p r : let q := cpost p r in aC q = r.1 /\ aCall q = aCall p /\ aIter q = aIter p /\ aGoal q = aGoal p /\
  aStart q = aStart p /\ aFwd q = aFwd p /\ aFirst q = aFirst p /\ aInit q = aInit p /\ aDec q = aDec p /\ aFinal q = aFinal p /\
  aEps q = (if r.2 then aInit p else aEps p) /\ aSat q = (if r.2 then INFQ else aSat p) /\ aNew q = aNew p /\ aReeval q = aReeval p /\
  aWrap q = aWrap p /\ aReinit q = aReinit p.
Proof. unfold cpost. destruct r as [c []]; cbn [fst snd]; wcbn; split_and!; done. Qed.

Lemma costs_spec G e G' e' p l : pinv G e p -> good_env fwd E G' e' -> (eSize e <= eSize e')%nat -> dsees fwd abs G' e' (aStart p) (aGoal p) ->
  Forall (fun t => (t < eSize e')%nat) l -> aIter p + 1 < 65536 ->
  exists p', ad_costs_changed e' p l = Ok p' /\ aWrap p' = aWrap p /\
   ((aReinit p' = true \/ aIter p = 0 \/
     repairable G G' p l /\ ((forall s, heur fwd e' s = heur fwd e s) \/ (ad_solution_eps p' == inject_Z INFINITECOST)%Q)) -> pinv G' e' p').
Proof.
  intros P Hge Hsz Hse Hl Hit. pose proof P as [Pfwd PE Pge Psees (m0&z0&Rm&Om&Lz&Hmz) Pdom Pcnt Pst Pgo Peps Ppar Phv Psearch].
  assert ((aReinit p || (aIter p =? 0) = true) \/ (aReinit p = false /\ aIter p <> 0)) as [Hc|[Hr Hi0]].
  { destruct (aReinit p); [by left|]. destruct (aIter p =? 0) eqn:E0; [left; by rewrite ?orb_true_r|right; split; [done|lia]]. }
  { exists (with_reeval p true). unfold ad_costs_changed. wcbn. rewrite Hc. split_and!; try done. intros _. split; wcbn; try done.
    - exists m0, z0. done.
    - intros s a Ha. destruct (Pdom s a Ha). split; [lia|done].
    - intros Hr. destruct (Psearch Hr) as (s&g&m&z&Es&Eg&Q). rewrite Hr in Hc. cbn in Hc.
      destruct (sst_zero G e G' e' s g p Hge Hsz) as (m'&z'&Q'); [eauto|lia|]. exists s, g, m', z'. done. }
  rewrite (costs_eq e' p l Hr Hi0). destruct (Psearch Hr) as (s&g&m&z&Es&Eg&Q). rewrite Es, Eg in *.
  destruct (cpre_rest e' (with_reeval p true) l) as (A1&A2&A3&A4&A5&A6&A7&A8&A9&A10&A11&A12&A13&A14&A15&A16).
  set (p1 := cpre e' (with_reeval p true) l) in *. clearbody p1. wcbn. 
  assert (u16 (aIter p + 1) = aIter p + 1) as Eu by (unfold u16; apply Z.mod_small; lia). rewrite Eu in A3.
  assert (aWrap p1 = aWrap p) as A15'. { rewrite A15. destruct (aIter p + 1 >=? 65536) eqn:E1; [lia|]. apply orb_false_r. }
  pose proof (fun x => env_fields fwd e e' (aCall p) (aC p) x) as HS.
  pose proof (sf_v fwd _ _ HS) as HV. pose proof (sf_g fwd _ _ HS) as HG. pose proof (sf_i fwd _ _ HS) as HI. pose proof (sf_b fwd _ _ HS) as HB.
  destruct Q as [D V B I Z N C K A T].
  assert (forall x, sIter (lk e' fwd (aCall p) (aC p) x) <> aIter p + 1) as Hne.
  { intros x. rewrite HI. pose proof (da_it _ _ _ _ _ _ _ _ _ D x). lia. }
  assert (dat e' fwd false (aCall p1) (aIter p1) None (aC p) m z) as D1.
  { rewrite A2, A3. destruct D. split; try done.
    + intros u a Ha. destruct (da_dom u a Ha). split; [lia|done].
    + intros u Hu. rewrite HV, HG. auto.
    + intros _ u Hu. by apply Hne in Hu.
    + intros u. rewrite HI. specialize (da_it u). lia. }
  assert (prev_ok G' e' fwd s) as Hpok by (intros t q w Ht; by apply (ds_prev _ _ _ _ _ _ Hse s)).
  assert (forall t q w, t <> s -> (q, w) ∈ sprev e' fwd t -> (q < eSize e')%nat /\ 0 < w <= INFINITECOST) as Hpr.
  { intros t q w Ht Hin. apply Hpok in Hin; [|done]. split; [by apply (ds_ids _ _ _ _ _ _ Hse) in Hin|]. by destruct (ge_edge _ _ _ _ Hge _ _ _ Hin). }
  pose proof (vok_sim fwd s _ _ HS V) as V0.
  assert (aFwd p1 = fwd) as Hf1 by congruence. assert (aStart p1 = Some s) as Hs1 by congruence. assert (0 < aIter p1) as Hi1 by lia.
  assert (forall x, 0 <= sV (lk e' fwd (aCall p1) (aC p) x) <= INFINITECOST) as HVr. { intros x. rewrite A2. apply V0. }
  destruct (update_states_spec G' e' fwd E Hge p1 s Hf1 Hs1 Hi1 Hpr l (aC p) m z false D1 HVr Hl)
    as (c'&m'&z'&aff&Eupd&D'&P'&C'&V'&U'&R'&A'). clear HVr.
  rewrite A2, A3 in *. rewrite Eupd. cbn [obind].
  destruct (cpost_rest p1 (c', aff)) as (B1&B2&B3&B4&B5&B6&B7&B8&B9&B10&B11&B12&B13&B14&B15&B16).
  set (p' := cpost p1 (c', aff)) in *. clearbody p'. cbn [fst snd] in *.
  exists p'. split; [done|]. split; [congruence|]. intros Hcond.
  set (L := lk e' fwd (aCall p) (aC p)) in *. set (L' := lk e' fwd (aCall p) c') in *.
  split; rewrite ?B1, ?B2, ?B3, ?B4, ?B5, ?B6, ?B7, ?B8, ?B9, ?B10, ?B13, ?B14, ?A2, ?A3, ?A4, ?A5, ?A6, ?A7, ?A8, ?A9, ?A10, ?A13, ?A14, ?Es, ?Eg; try done.
  - exists m', z'. split_and!; try apply D'. intros u Hu. apply (da_cur _ _ _ _ _ _ _ _ _ D') in Hu as (a&Ea&_). eauto.
  - apply D'.
  - lia.
  - intros u Hu. apply P'. apply Pst. congruence.
  - intros u Hu. apply P'. apply Pgo. congruence.
  - rewrite B11, A8, A11. destruct aff; [apply Ppar|done].
  - intros Hr'. destruct Hcond as [Hx|[Hx|[[Hrep1 Hrep2] Hheur]]]; [congruence|done|].
    exists s, g, m', z'. split; [done|]. split; [done|].
    assert (forall x, x <> s -> x ∈ l -> current (aCall p) (aC p) x -> recomputed e' fwd L (L' x) x) as HR by auto.
    assert (bok G' fwd s nobody L') as HBok.
    { intros t Hts Hf _. destruct (decide (t ∈ l /\ current (aCall p) (aC p) t)) as [[Htl Htc]|Hx].
      - destruct (R' t Htl Hts Htc) as (_&_&[?|(q&w&Hin&Hb&Hq)]); [lia|]. exists q, w. split; [done|]. split; [by apply Hpok|].
        destruct (V' q) as [-> _]. lia.
      - assert (L' t = L t) as Et. { apply U'. destruct (decide (t ∈ l)); [right; right; tauto|by left]. }
        rewrite Et in *. assert (current (aCall p) (aC p) t) as Htc by (by eapply fresh_g).
        unfold L in Hf. rewrite HG in Hf. destruct (B t Hts Hf) as (q&w&Hb&Hin&Hle); [intros []|]. exists q, w. 
        split; [unfold L; rewrite HB; done|]. split; [apply Hrep1; [tauto|done]|]. destruct (V' q) as [-> _]. unfold L. rewrite HV, HG. done. }
    assert (iok G' noedge (current (aCall p) c') L') as HIok.
    { intros u t w Hin Hf _. destruct (V' u) as [EV _]. rewrite EV in *. unfold L in Hf. rewrite HV in Hf.
      assert (current (aCall p) (aC p) t) as Htc.
      { destruct (decide (t ∈ l)) as [Htl|Htl].
        - destruct (Hrep2 u t w Hin) as [[w' Hw']|Hk]; [|exact Hk]. by destruct (I u t w' Hw' Hf) as [? _]; [intros []|].
        - apply Hrep1 in Hin; [|done]. by destruct (I u t w Hin Hf) as [? _]; [intros []|]. }
      split; [by apply C'|]. destruct (decide (t = s)) as [->|Hts].
      - rewrite U' by auto. rewrite (vo_s _ _ _ V0). pose proof (ge_edge _ _ _ _ Hge _ _ _ Hin). pose proof (vo_v _ _ _ V0 u). lia.
      - destruct (decide (t ∈ l)) as [Htl|Htl].
        + destruct (R' t Htl Hts Htc) as (Hle&_). apply Hle. by apply Hpok.
        + rewrite U' by auto. apply Hrep1 in Hin; [|done]. destruct (I u t w Hin Hf) as [_ Hle]; [intros []|]. unfold L. rewrite HG, HV. done. }
    split; rewrite ?B1, ?B2, ?B3, ?B13, ?B14, ?A2, ?A3, ?A13, ?A14; fold L'; try done.
    + split.
      * intros x. destruct (decide (x ∈ l /\ x <> s /\ current (aCall p) (aC p) x)) as [(Hxl&Hxs&Hxc)|Hx]; [by apply (R' x Hxl Hxs Hxc)|].
        rewrite U'; [apply V0|]. destruct (decide (x ∈ l)); [right|by left]. destruct (decide (x = s)); [by left|right]. tauto.
      * intros x. destruct (V' x) as [-> _]. apply V0.
      * rewrite U' by auto. apply V0.
      * rewrite U' by auto. apply V0.
    + lia.
    + intros _ x. destruct (V' x) as [_ ->]. apply Hne.
    + intros Ha. destruct (V' g) as [-> _]. unfold L. rewrite HV. auto.
    + rewrite B12, A12. destruct aff; [by left|]. destruct T as [?|(T1&T2&T3)]; [by left|].
      destruct Hheur as [Hh|Hinf].
      2:{ exfalso. unfold ad_solution_eps in Hinf. rewrite B12, A12 in Hinf. fold INFQ in Hinf. lra. }
      right. split; [done|]. split; [by apply C'|]. destruct (A' eq_refl) as [_ Hun].
      assert (forall x, L' x = L x) as HL.
      { intros x. apply U'. destruct (decide (x ∈ l)); [right|by left]. destruct (decide (x = s)); [by left|right]. auto. }
      assert (satv G e' fwd s g (inflate (aSat p)) (hh e' fwd (aSat p)) L) as (S1&S2&S3).
      { apply (satv_hh _ _ _ _ _ _ (hh e fwd (aSat p))); [by apply hh_ext|]. by eapply satv_sim. }
      split; [|rewrite HL; split].
      * clear S2 S3. revert S1. generalize g. intros g0 S1. induction S1 as [|x q w Hn Hb Hp IH Hin Hle Hv Hf]; [constructor|]. apply (safe_step _ _ _ _ x q w); rewrite ?HL; try done.
        apply Hrep1; [|done]. intros Hxl. apply (Hun x Hxl Hn). by eapply (fresh_g e').
      * intros y C0 Hsr. rewrite HL. set (B0 := sG (L g)) in *.
        assert ((exists C1, C1 <= C0 /\ sr G (inflate (aSat p)) s y C1) \/ INFINITECOST <= C0 \/ B0 <= C0 + hh e' fwd (aSat p) y) as HP.
        { induction Hsr as [|u t w C1 Hsr IH Hin]; [left; exists 0; split; [done|constructor]|].
          assert (1 <= inflate (aSat p) w) as Hw. { pose proof (ge_edge _ _ _ _ Hge _ _ _ Hin). unfold inflate. lia. }
          assert (hh e' fwd (aSat p) u <= inflate (aSat p) w + hh e' fwd (aSat p) t) as Hst.
          { apply (toint_step E); try apply Hge; [lra|]. by apply (ds_cons _ _ _ _ _ _ Hse). }
          destruct (decide (t = s)) as [->|Hts].
          { left. exists 0. split; [|constructor]. assert (0 <= C1); [|lia].
            clear -Hsr Hge. induction Hsr as [|u t w C1 Hsr IH Hin]; [done|]. pose proof (ge_edge _ _ _ _ Hge _ _ _ Hin). unfold inflate. lia. }
          destruct IH as [(C2&HC2&Hsr2)|[?|?]]; [|right; left; lia|right; right; lia].
          destruct (decide (t ∈ l)) as [Htl|Htl].
          - destruct (S2 u C2 Hsr2) as [Hv|?]; [|right; right; lia]. right; left.
            destruct (decide (sV (L' u) < INFINITECOST)) as [Hf|Hf]; [|rewrite HL in Hf; lia].
            destruct (HIok u t w Hin Hf) as [Hc _]; [intros []|]. exfalso. apply (Hun t Htl Hts). by apply C'.
          - left. exists (C2 + inflate (aSat p) w). split; [lia|]. econstructor; [done|]. by apply Hrep1. }
        destruct HP as [(C1&HC1&Hsr1)|[?|?]]; [|left; pose proof (vo_v _ _ _ V0 y); lia|by right].
        destruct (S2 y C1 Hsr1); [left; lia|right; lia].
      * intros x. rewrite HL. apply S3.
Qed.
End costs.
