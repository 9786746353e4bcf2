(** The AD* planner object: the invariant of all reachable worlds. *)
From Coq Require Import ZifyBool ZifyNat QArith Qround Lqa.
From Verif Require Import Base KeyModel HeapModel HeapProofs ListModel ListProofs ListSpec AngleModel AngleProofs AraModel AraSpec AraProofs AraPath AraProofs3 AraProofs4 AdModel AdSpec AdAbs AdProofs AdProofs2 AdProofs3 AdPath.
Local Open Scope Z_scope.

(** * Views that agree except for the heuristic values *)
Section sim.
Context (G : nat -> list (nat * Z)) (fwd : bool) (start : nat).
Context (L L' : nat -> astate) (HS : forall s, same_fields fwd (L s) (L' s)).
Lemma sf_v s : sV (L' s) = sV (L s). Proof using HS. apply HS. Qed.
Lemma sf_g s : sG (L' s) = sG (L s). Proof using HS. apply HS. Qed.
Lemma sf_i s : sIter (L' s) = sIter (L s). Proof using HS. apply HS. Qed.
Lemma sf_b s : get_bp fwd (L' s) = get_bp fwd (L s). Proof using HS. apply HS. Qed.
Lemma vok_sim : vok fwd start L -> vok fwd start L'.
Proof using HS. intros V. destruct V. split; intros; rewrite ?sf_v, ?sf_g, ?sf_b; auto. Qed.
Lemma bok_sim ex : bok G fwd start ex L -> bok G fwd start ex L'.
Proof using HS. intros B t. rewrite sf_g, sf_b. intros H1 H2 H3. destruct (B t H1 H2 H3) as (p&w&?&?&?). exists p, w. by rewrite sf_v. Qed.
Lemma iok_sim ex (cur cur' : nat -> Prop) : (forall s, cur s -> cur' s) -> iok G ex cur L -> iok G ex cur' L'.
Proof using HS. intros HC I s t w. rewrite sf_v, sf_g. intros H1 H2 H3. destruct (I s t w H1 H2 H3). auto. Qed.
Lemma safe_sim x : safe G fwd start L x -> safe G fwd start L' x.
Proof using HS.
  induction 1 as [|x p w Hn Hb Hp IH Hin Hle Hv Hf]; [constructor|]. apply (safe_step _ _ _ _ x p w); rewrite ?sf_v, ?sf_g, ?sf_b; done.
Qed.
Lemma satv_sim e e' goal W h : (forall s, heur fwd e' s = heur fwd e s) -> satv G e fwd start goal W h L -> satv G e' fwd start goal W h L'.
Proof using HS.
  intros Hh (S1&S2&S3). split; [by apply safe_sim|]. rewrite sf_g. split.
  - intros y C. rewrite sf_v. apply S2.
  - intros u. rewrite sf_v, sf_g, Hh. apply S3.
Qed.
End sim.
Lemma hh_ext e e' fwd eps : (forall s, heur fwd e' s = heur fwd e s) -> forall x, hh e' fwd eps x = hh e fwd eps x.
Proof. intros Hh x. unfold hh. by rewrite Hh. Qed.
Lemma satv_hh G e fwd start goal W h h' L : (forall x, h' x = h x) -> satv G e fwd start goal W h L -> satv G e fwd start goal W h' L.
Proof. intros Hh (S1&S2&S3). split; [done|]. split; [|done]. intros y C. rewrite Hh. apply S2. Qed.

(** * The invariant *)
Section pinv.
Context (fwd abs : bool) (E : Q).
Record sst (G : nat -> list (nat * Z)) (e : aenv) (start goal : nat) (p : ara) (m : gmap nat ckey) (z : list (nat * nat)) : Prop := {
  q_dat : dat e fwd (negb (aNew p)) (aCall p) (aIter p) None (aC p) m z;
  q_vok : vok fwd start (lk e fwd (aCall p) (aC p));
  q_bok : bok G fwd start nobody (lk e fwd (aCall p) (aC p));
  q_iok : iok G noedge (current (aCall p) (aC p)) (lk e fwd (aCall p) (aC p));
  q_zero : aIter p = 0 -> aSat p = INFQ /\ z = [] /\ forall x, sV (lk e fwd (aCall p) (aC p) x) = INFINITECOST /\
    (x <> start -> sG (lk e fwd (aCall p) (aC p) x) = INFINITECOST);
  q_new : aNew p = true -> forall x, sIter (lk e fwd (aCall p) (aC p) x) <> aIter p;
  q_closed : aNew p = false -> 0 < aIter p -> forall x, sIter (lk e fwd (aCall p) (aC p) x) = aIter p ->
    safe G fwd start (lk e fwd (aCall p) (aC p)) x /\
    forall C, sr G (inflate (aEps p)) start x C -> sV (lk e fwd (aCall p) (aC p) x) <= C;
  q_kin : aReeval p = false -> kin e fwd (aEps p) (aCall p) (aC p) m;
  q_abs : abs = true -> sV (lk e fwd (aCall p) (aC p) goal) = INFINITECOST;
  q_sat : aSat p = INFQ \/ (1 <= aSat p <= E)%Q /\ current (aCall p) (aC p) goal /\
    satv G e fwd start goal (inflate (aSat p)) (hh e fwd (aSat p)) (lk e fwd (aCall p) (aC p))
}.
Record dpinv (G : nat -> list (nat * Z)) (e : aenv) (p : ara) : Prop := {
  p_fwd : aFwd p = fwd;
  p_E : (10 <= E < INFQ)%Q;
  p_ge : good_env fwd E G e;
  p_sees : dsees fwd abs G e (aStart p) (aGoal p);
  p_rep : exists m z, rep (cOpen (aC p)) m /\ ord ckeyops 1 (cOpen (aC p)) /\ lrep (cInc (aC p)) z /\
    forall s, is_Some (m !! s) \/ s ∈ z.*2 -> is_Some (cSt (aC p) !! s);
  p_dom : forall s a, cSt (aC p) !! s = Some a -> (s < eSize e)%nat /\ 0 <= sCall a <= aCall p;
  p_cnt : 0 <= aCall p /\ 0 <= aIter p;
  p_start : forall s, aStart p = Some s -> is_Some (cSt (aC p) !! s);
  p_goal : forall s, aGoal p = Some s -> is_Some (cSt (aC p) !! s);
  p_eps : (1 <= aEps p <= E)%Q;
  p_par : (1 <= aInit p <= E /\ 1 <= aFinal p <= E /\ 0 <= aDec p)%Q;
  p_hv : aReeval p = false -> aGoal p <> None -> hvalid e fwd (aC p);
  p_search : aReinit p = false -> exists start goal m z, aStart p = Some start /\ aGoal p = Some goal /\ sst G e start goal p m z
}.
Notation pinv := dpinv.

Lemma sst_sim G e e' start goal p p' m z : sst G e start goal p m z ->
  aCall p' = aCall p -> aIter p' = aIter p -> aNew p' = aNew p -> aEps p' = aEps p ->
  rep (cOpen (aC p')) m -> ord ckeyops 1 (cOpen (aC p')) -> lrep (cInc (aC p')) z ->
  (forall s, same_fields fwd (lk e fwd (aCall p) (aC p) s) (lk e' fwd (aCall p) (aC p') s)) ->
  (forall s a, cSt (aC p') !! s = Some a -> (s < eSize e')%nat /\ 0 <= sCall a <= aCall p) ->
  (forall s, current (aCall p) (aC p) s -> current (aCall p) (aC p') s) ->
  (aReeval p' = false -> aReeval p = false /\
     forall s, is_Some (m !! s) -> sH (lk e' fwd (aCall p) (aC p') s) = sH (lk e fwd (aCall p) (aC p) s)) ->
  (aSat p' = INFQ \/ aSat p' = aSat p /\ forall s, heur fwd e' s = heur fwd e s) ->
  sst G e' start goal p' m z.
Proof.
  intros Q E1 E2 E3 E4 R O Lr HS HD HC HK HT.
  pose proof (sf_v fwd _ _ HS) as HV. pose proof (sf_g fwd _ _ HS) as HG. pose proof (sf_i fwd _ _ HS) as HI.
  destruct Q as [D V B I Z N C K A T]. split; rewrite ?E1, ?E2, ?E3, ?E4.
  - destruct D. split; try done.
    + intros s Hs. rewrite HV, HG. auto.
    + intros Hi s. rewrite HI. auto.
    + intros Hz s. rewrite HI. auto.
    + intros s. rewrite HI. auto.
    + auto.
  - by eapply vok_sim.
  - by eapply bok_sim.
  - by eapply iok_sim.
  - intros Hi. destruct (Z Hi) as (HT0&?&HZ). split; [by destruct HT as [?|[-> _]]|]. split; [done|]. intros x. rewrite HV, HG. apply HZ.
  - intros Hn x. rewrite HI. auto.
  - intros Hn Hi x. rewrite HI, HV. intros Hx. destruct (C Hn Hi x Hx). split; [by eapply safe_sim|done].
  - intros Hr. destruct (HK Hr) as [Hr0 Hh]. intros s k Hk. rewrite (K Hr0 s k Hk). unfold ad_key. rewrite HV, HG, Hh by eauto. done.
  - intros Ha. rewrite HV. auto.
  - destruct HT as [HT|[HT Hh]]; [by left|]. rewrite HT. destruct T as [T|(T1&T2&T3)]; [by left|right]. split; [done|]. split; [auto|].
    apply (satv_hh _ _ _ _ _ _ (hh e fwd (aSat p))); [by apply hh_ext|]. by eapply satv_sim.
Qed.
(** The iteration number goes up by one. *)
Lemma sst_bump G e start goal goal' p p' m z : sst G e start goal p m z -> 0 <= aIter p ->
  aCall p' = aCall p -> aIter p' = aIter p + 1 -> aC p' = aC p -> (aNew p' = true \/ aNew p' = aNew p /\ z = []) ->
  (aReeval p' = false -> aReeval p = false /\ aEps p' = aEps p) -> (abs = true -> goal' = goal) -> 
  (aSat p' = INFQ \/ aSat p' = aSat p /\ goal' = goal) -> sst G e start goal' p' m z.
Proof.
  intros Q Hi E1 E2 E3 HN HR HA HT. destruct Q as [D V B I Z N C K A T].
  assert (forall x, sIter (lk e fwd (aCall p) (aC p) x) <> aIter p + 1) as Hne.
  { intros x. pose proof (da_it _ _ _ _ _ _ _ _ _ D x). lia. }
  split; rewrite ?E1, ?E2, ?E3; try done.
  - destruct D. split; try done.
    + intros _ s Hs. by destruct (Hne s).
    + destruct HN as [->|[_ ->]]; [done|]. intros _ s Hs. cbn in Hs. by apply elem_of_nil in Hs.
    + intros s. specialize (da_it s). lia.
  - lia.
  - intros _ _ x Hx. by destruct (Hne x).
  - intros Hr. destruct (HR Hr) as [? ->]. auto.
  - intros Ha. rewrite (HA Ha). auto.
  - destruct HT as [?|[-> ->]]; [by left|done].
Qed.

(** ** Reinitialisation *)
Lemma reinit_spec G e p s g : pinv G e p -> aStart p = Some s -> aGoal p = Some g -> hvalid e fwd (aC p) -> aCall p + 1 < 65536 ->
  exists p', ad_reinit e p = Ok p' /\ pinv G e p' /\ aReinit p' = false /\ aReeval p' = false /\ aNew p' = false /\
    aStart p' = Some s /\ aGoal p' = Some g /\ aIter p' = 0 /\ aEps p' = aInit p /\ aSat p' = INFQ /\ aCall p' = aCall p + 1 /\
    aInit p' = aInit p /\ aDec p' = aDec p /\ aFinal p' = aFinal p /\ aFirst p' = aFirst p /\ aFwd p' = aFwd p /\
    hvalid e fwd (aC p') /\ aWrap p' = aWrap p.
Proof.
  intros P Hs Hg Hv Hcall. pose proof P as [Pfwd PE Pge Psees (m&z&Rm&Om&Lz&Prz) Pdom Pcnt Pst Pgo Peps Ppar Phv _].
  unfold ad_reinit. wcbn.
  destruct (makeemptyheap_spec ckeyops _ _ Rm) as (h0&Eh0&Rh0&Oh0). rewrite Eh0. cbn [dlift obind].
  assert (exists l0, makeemptylist (cInc (aC p)) = Ok l0 /\ lrep l0 []) as (l0&El0&Ll0).
  { unfold makeemptylist. destruct (makeempty_spec z _ Lz) as (l0&El&Ll). exists l0. split; [|done].
    assert (csize (cInc (aC p)) = length z) as -> by apply Lz. exact El. }
  rewrite El0. cbn [dlift obind].
  rewrite Hs, Hg.
  set (call := u16 (aCall p + 1)). assert (call = aCall p + 1) as Ecall by (unfold call, u16; apply Z.mod_small; lia).
  clearbody call. subst call.
  set (c0 := mkCore (cSt (aC p)) h0 l0). rewrite Pfwd.
  (* every state is stale *)
  assert (forall u, lk e fwd (aCall p + 1) c0 u = fresh_info e fwd (aCall p + 1) true u) as HL0.
  { intros u. unfold lk. cbn. destruct (cSt (aC p) !! u) as [a|] eqn:Ea; [|done]. destruct (Pdom u a Ea) as (_&?).
    destruct (sCall a =? aCall p + 1) eqn:Ec; [lia|done]. }
  assert (forall u, ~ current (aCall p + 1) c0 u) as Hnc.
  { intros u (a&Ea&Ec). destruct (Pdom u a Ea) as (_&?). lia. }
  destruct (Pst s Hs) as [as0 Eas]. rewrite refresh_eq. cbn [cSt c0]. rewrite Eas.
  destruct (sCall as0 =? aCall p + 1) eqn:Ec0.
  { exfalso. apply (Hnc s). exists as0. split; [done|lia]. }
  cbn [dlift obind]. set (c1 := ReInitializeSearchStateInfo e fwd (aCall p + 1) true c0 s).
  assert (rdst c1 s = Ok (fresh_info e fwd (aCall p + 1) true s)) as ->.
  { unfold rdst, c1. cbn. by rewrite lookup_insert. }
  cbn [dlift obind]. cbn [fresh_info sV sIter sCall sPred sNext sCostNext sH].
  set (a1 := mkA INFINITECOST 0 0 (aCall p + 1) None None INFINITECOST (ComputeHeuristic e fwd s)).
  set (c2 := set_st c1 s a1).
  assert (forall u, lk e fwd (aCall p + 1) c2 u = if decide (u = s) then a1 else fresh_info e fwd (aCall p + 1) true u) as HL2.
  { intros u. unfold c2. rewrite (lk_set e fwd (aCall p + 1) c1 s a1 u) by done. destruct (decide (u = s)); [done|].
    unfold c1. rewrite reinit_lk by apply Hnc. apply HL0. }
  assert (hvalid e fwd c2) as Hv2.
  { intros u b. unfold c2, c1. cbn. destruct (decide (u = s)) as [->|?].
    - rewrite lookup_insert. by intros [= <-].
    - rewrite !lookup_insert_ne by done. apply Hv. }
  assert (rep (cOpen c2) ∅ /\ ord ckeyops 1 (cOpen c2) /\ lrep (cInc c2) []) as (R2&O2&L2).
  { unfold c2, c1. cbn. split_and!; [by apply idx_rep|done|]. apply elem_lrep; [done|]. apply not_elem_of_nil. }
  assert (forall u a, cSt c2 !! u = Some a -> (u < eSize e)%nat /\ 0 <= sCall a <= aCall p + 1) as D2.
  { intros u a. unfold c2, c1. cbn. destruct (decide (u = s)) as [->|?].
    - rewrite lookup_insert. intros [= <-]. cbn. destruct (Pdom s as0 Eas). split; [done|lia].
    - rewrite !lookup_insert_ne by done. intros Ha. destruct (Pdom u a Ha). split; [done|lia]. }
  assert (forall u, is_Some (cSt (aC p) !! u) -> is_Some (cSt c2 !! u)) as Hpr.
  { intros u Hu. unfold c2, c1. cbn. destruct (decide (u = s)) as [->|?]; [rewrite lookup_insert; eauto|by rewrite !lookup_insert_ne]. }
  assert (current (aCall p + 1) c2 s) as Hcs. { exists a1. unfold c2. cbn. by rewrite lookup_insert. }
  destruct (insertheap_spec ckeyops ckeylaws (cOpen c2) ∅ s (ad_key (aInit p) a1) R2 O2) as (h4&Eh4&R4&O4).
  { done. } { by rewrite map_size_empty. }
  rewrite Eh4. cbn [dlift obind]. eexists. split; [reflexivity|].
  assert (u16 (aCall p + 1) = aCall p + 1) as Eu by (unfold u16; apply Z.mod_small; lia).
  wcbn. rewrite ?Eu. split_and!; try done.
  2:{ destruct (aCall p + 1 >=? 65536) eqn:Ew; [lia|]. apply orb_false_r. }
  split; wcbn; cbn [cOpen cInc cSt]; rewrite ?Eu; try done.
  - eexists _, []. split_and!; [exact R4|done|done|]. intros u [[k Hu]|Hu].
    + apply lookup_insert_Some in Hu as [[<- _]|[_ [=]]]. destruct Hcs as (b&->&_). eauto.
    + by apply elem_of_nil in Hu.
  - lia.
  - rewrite Hs. intros u [= <-]. destruct Hcs as (b&->&_). eauto.
  - rewrite Hg. intros u [= <-]. by apply Hpr, Pgo.
  - destruct Ppar as (?&_). lra.
  - intros _. exists s, g. eexists _, _. split; [done|]. split; [done|].
    assert (forall u, lk e fwd (aCall p + 1) (mkCore (cSt c2) h4 (cInc c2)) u = if decide (u = s) then a1 else fresh_info e fwd (aCall p + 1) true u) as HL4.
    { exact HL2. }
    split; wcbn; rewrite ?Eu; cbn [negb].
    + split; [exact R4|done|exact L2|done|..].
      * intros u _. rewrite HL4. destruct (decide (u = s)) as [->|?]; cbn.
        -- rewrite lookup_insert. split; [|eauto]. intros _. unfold INFINITECOST. lia.
        -- rewrite lookup_insert_ne by done. split; [|lia]. intros [[? [=]]|Hx]. by apply elem_of_nil in Hx.
      * intros u _. cbn. apply not_elem_of_nil.
      * lia.
      * intros _ u Hu. cbn in Hu. by apply elem_of_nil in Hu.
      * intros u. rewrite HL4. destruct (decide (u = s)); cbn; lia.
      * intros u [[k Hu]|Hu]; [|by apply elem_of_nil in Hu]. apply lookup_insert_Some in Hu as [[<- _]|[_ [=]]]. done.
    + split.
      * intros u. rewrite HL4. destruct (decide (u = s)); cbn; unfold INFINITECOST; lia.
      * intros u. rewrite HL4. destruct (decide (u = s)); cbn; unfold INFINITECOST; lia.
      * rewrite HL4, decide_True by done. done.
      * rewrite HL4, decide_True by done. unfold a1, get_bp. by destruct fwd.
    + intros u Hu. rewrite HL4, decide_False by done. cbn. lia.
    + intros u t w. rewrite HL4. destruct (decide (u = s)); cbn; lia.
    + intros _. split; [done|]. split; [done|]. intros u. rewrite HL4. destruct (decide (u = s)) as [->|?]; done.
    + done.
    + lia.
    + intros _ u k Hu. apply lookup_insert_Some in Hu as [[<- <-]|[_ [=]]]. rewrite HL4, decide_True by done. done.
    + intros _. rewrite HL4. by destruct (decide (g = s)).
    + by left.
Qed.
End pinv.
