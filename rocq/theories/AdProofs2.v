From Coq Require Import ZifyBool ZifyNat QArith Qround Lqa.
From Verif Require Import Base KeyModel HeapModel HeapProofs ListModel ListProofs ListSpec AngleModel AngleProofs AraModel AraSpec AraProofs AdModel AdAbs AdProofs.
Local Open Scope Z_scope.

Section search.
Context (G : nat -> list (nat * Z)) (e : aenv) (fwd : bool) (E : Q) (start : nat).
Context (Hge : good_env fwd E G e).
(** The list of search-predecessors of every state but the start agrees with the graph. *)
Definition prev_ok : Prop := forall t p w, t <> start -> (p, w) ∈ sprev e fwd t <-> (t, w) ∈ G p.
Definition prev_in : Prop := forall t p w, t <> start -> (p, w) ∈ sprev e fwd t -> (p < eSize e)%nat.
Context (HP : prev_ok) (HPI : prev_in).
Notation inz z s := (s ∈ z.*2).
Notation lkc := (lk e fwd).
Notation H s := (heur fwd e s).
Notation bp a := (get_bp fwd a).
Notation vok := (vok fwd start).
Notation bok := (bok G fwd start).
Notation iok := (iok G).
Notation safe := (safe G fwd start).
Notation dat := (dat e fwd).
Notation kin := (kin e fwd).
Notation hvalid := (hvalid e fwd).
Notation mono := (mono e fwd).

Lemma Gp : Gpos G.
Proof using Hge. intros s t w Hin. destruct (ge_edge _ _ _ _ Hge s t w Hin) as [_ ?]. lia. Qed.

Lemma hvalid_set c t a h l : hvalid c -> sH a = H t -> hvalid (mkCore (<[t := a]> (cSt c)) h l).
Proof.
  intros Hv Ha u b Hu. cbn in Hu. destruct (decide (u = t)) as [->|?].
  - rewrite lookup_insert in Hu. by injection Hu as <-.
  - rewrite lookup_insert_ne in Hu by done. by apply Hv.
Qed.
Lemma hvalid_st c c' : cSt c' = cSt c -> hvalid c -> hvalid c'.
Proof. intros Hs Hv u b. rewrite Hs. apply Hv. Qed.
Lemma st_current call c c' u : cSt c' = cSt c -> current call c u <-> current call c' u.
Proof. intros Hs. unfold current. by rewrite Hs. Qed.

(** Setting the record of [t] and repairing its membership. *)
Lemma set_usm zb eps call iter c m z t a : dat zb call iter None c m z -> 0 < iter -> current call c t -> sCall a = call ->
  sIter a = sIter (lkc call c t) -> exists c' m' z', UpdateSetMembership eps iter (set_st c t a) t = Ok c' /\
  dat zb call iter None c' m' z' /\ (forall s, lkc call c' s = if decide (s = t) then a else lkc call c s) /\
  (kin eps call c m -> kin eps call c' m') /\ (hvalid c -> sH a = H t -> hvalid c') /\
  (forall u, is_Some (cSt c !! u) -> is_Some (cSt c' !! u)) /\ (forall u, current call c u -> current call c' u) /\
  (forall x k, m' !! x = Some k -> x <> t /\ m !! x = Some k \/ x = t /\ k = ad_key eps a).
Proof using Hge.
  intros D Hit Ht Hc Hi. pose proof (dat_set e fwd zb call iter c m z t a D Ht Hc Hi) as D1.
  pose proof (set_current call c t a t (cOpen c) (cInc c) Hc Ht) as Ht1.
  destruct (usm_spec G e fwd E Hge zb eps call iter (set_st c t a) m z t D1 Hit Ht1) as (c'&m'&z'&E1&ES&D2&HK).
  exists c', m', z'. assert (forall s, lkc call c' s = if decide (s = t) then a else lkc call c s) as HL.
  { intros s. rewrite (lk_st e fwd call _ c' s ES). by apply lk_set. }
  assert (lkc call (set_st c t a) t = a) as Ela. { rewrite lk_set by done. by rewrite decide_True. }
  rewrite Ela in HK. split_and!; try done.
  - intros K x k Hk. rewrite HL. destruct (HK x k Hk) as [[Hx Hk0]|[-> ->]]; [rewrite decide_False by done; by apply K|by rewrite decide_True].
  - intros Hv Ha. apply (hvalid_st (set_st c t a)); [done|]. by apply hvalid_set.
  - intros u Hu. rewrite ES. by apply (set_present c t a u (cOpen c) (cInc c)).
  - intros u Hu. apply (st_current call (set_st c t a) c' u ES). by apply (set_current call c t a u (cOpen c) (cInc c)).
Qed.

Lemma vok_ext L L' : (forall s, L' s = L s) -> vok L -> vok L'.
Proof. intros HL V. destruct V. split; intros; rewrite HL; auto. Qed.
Lemma bok_ext ex L L' : (forall s, L' s = L s) -> bok ex L -> bok ex L'.
Proof. intros HL B t. rewrite HL. intros H1 H2 H3. destruct (B t H1 H2 H3) as (p&w&?&?&?). exists p, w. by rewrite HL. Qed.
Lemma iok_ext ex (cur cur' : nat -> Prop) L L' : (forall s, L' s = L s) -> (forall s, cur s -> cur' s) -> iok ex cur L -> iok ex cur' L'.
Proof. intros HL HC I s t w. rewrite !HL. intros H1 H2 H3. destruct (I s t w H1 H2 H3). auto. Qed.
Lemma safe_ext L L' x : (forall s, L' s = L s) -> safe L x -> safe L' x.
Proof. intros HL. apply safe_frame. auto. Qed.

(** * Overconsistent expansion *)
Definition pend (s : nat) (ns : list (nat * Z)) : nat -> nat -> Z -> Prop := fun a b w => a = s /\ (b, w) ∈ ns.
Lemma over_step_spec eps call iter s t w ns c m z : let L := lkc call c in
  dat true call iter None c m z -> kin eps call c m -> hvalid c -> vok L -> bok nobody L -> iok (pend s ((t, w) :: ns)) (current call c) L ->
  safe L s -> sV (L s) < INFINITECOST -> (t, w) ∈ G s -> 0 <= call -> 0 < iter ->
  exists c' m' z', over_step e fwd eps iter call s c (t, w) = Ok c' /\ let L' := lkc call c' in
    dat true call iter None c' m' z' /\ kin eps call c' m' /\ hvalid c' /\ vok L' /\ bok nobody L' /\ iok (pend s ns) (current call c') L' /\
    mono call c c' /\ (forall x, safe L x -> safe L' x).
Proof using Hge.
  intros L D K Hv V B I Hs Hvs Hin Hc Hit. destruct (ge_edge _ _ _ _ Hge s t w Hin) as [Ht Hw].
  destruct (get_refresh_d e fwd true call iter c m z t D Hc Ht) as (c1&Eg&D1&Hv1&Hcur&HL&Hp&Hpc).
  specialize (Hv1 Hv). unfold over_step. cbn [fst snd].
  destruct (dlift DBadState (GetState e fwd call true c t)) as [c0| | |] eqn:E0; try discriminate. cbn [obind] in Eg |- *.
  rewrite Eg. cbn [obind]. rewrite (dlift_ok _ _ _ (rdst_current e fwd call c1 t Hcur)). cbn [obind].
  assert (rdst c1 s = Ok (lkc call c1 s)) as Es. { apply rdst_finite. rewrite HL. auto. }
  rewrite (dlift_ok _ _ _ Es). cbn [obind]. rewrite !HL. fold (L t) (L s).
  assert (mono call c c1) as M1 by (split_and!; [intros u; rewrite HL; lia|done|done]).
  assert (kin eps call c1 m) as K1 by (intros u k Hk; rewrite HL; by apply K).
  assert (u32 (sV (L s) + w) = sV (L s) + w) as Eu.
  { unfold u32. apply Z.mod_small. pose proof (vo_v _ _ _ V s). unfold INFINITECOST in *. lia. }
  rewrite Eu. destruct (sG (L t) >? sV (L s) + w) eqn:Egt.
  2:{ exists c1, m, z. split; [done|]. cbv zeta. split_and!; try done; [by apply (vok_ext L)|by apply (bok_ext _ L)| |intros x; by apply safe_ext].
      intros a b wx. rewrite !HL. fold (L a) (L b). intros H1 H2 H3.
      destruct (decide (a = s /\ b = t /\ wx = w)) as [(->&->&->)|Hne]; [split; [done|lia]|].
      destruct (I a b wx H1 H2) as [HI1 HI2]; [|auto].
      intros [-> [[= -> ->]|Hin']%elem_of_cons]; [by apply Hne|]. by apply H3. }
  set (a' := set_gbp fwd (L t) (sV (L s) + w) s w).
  assert (sV a' = sV (L t) /\ sG a' = sV (L s) + w /\ sIter a' = sIter (L t) /\ sCall a' = call /\ bp a' = Some s /\ sH a' = sH (L t)) as (V1&G1&I1&C1&B1&H1).
  { unfold a', set_gbp, get_bp. pose proof (lk_call e fwd call c t). destruct fwd; simpl; split_and!; done. }
  clearbody a'. destruct (set_usm true eps call iter c1 m z t a' D1 Hit Hcur C1) as (c2&m2&z2&E2&D2&HL2&K2&Hv2&Hp2&Hc2&_).
  { by rewrite HL. }
  exists c2, m2, z2. split; [done|]. cbv zeta.
  assert (forall x, lkc call c2 x = if decide (x = t) then a' else L x) as HLL. { intros x. rewrite HL2, HL. done. }
  assert (forall x, sV (lkc call c2 x) = sV (L x)) as HV. { intros x. rewrite HLL. by destruct (decide (x = t)) as [->|?]. }
  assert (forall x, sG (lkc call c2 x) <= sG (L x)) as HG. { intros x. rewrite HLL. destruct (decide (x = t)) as [->|?]; lia. }
  pose proof (vo_v _ _ _ V s) as Vs. pose proof (vo_g _ _ _ V t) as Vt.
  assert (t <> start) as Hts. { intros ->. rewrite (vo_s _ _ _ V) in Egt. lia. }
  split_and!; try done.
  - by apply K2.
  - apply Hv2; [done|]. rewrite H1. by apply lk_H.
  - split.
    + intros x. rewrite HLL. destruct (decide (x = t)) as [->|?]; [lia|apply V].
    + intros x. rewrite HV. apply V.
    + rewrite HLL, decide_False by done. apply V.
    + rewrite HLL, decide_False by done. apply V.
  - intros x Hx Hf _. rewrite HLL in *. destruct (decide (x = t)) as [->|Hxt].
    + exists s, w. split_and!; try done. rewrite HV. lia.
    + destruct (B x Hx Hf) as (p&w'&?&?&?); [intros []|]. exists p, w'. rewrite HV. done.
  - intros a b wx Hab. rewrite HV. intros Hf Hn. destruct (decide (a = s /\ b = t /\ wx = w)) as [(->&->&->)|Hne].
    + split; [by apply Hc2|]. rewrite HLL, decide_True by done. lia.
    + destruct (I a b wx Hab Hf) as [HI1 HI2]; [|split; [by apply Hc2, Hpc|pose proof (HG b); lia]].
      intros [-> [[= -> ->]|Hin']%elem_of_cons]; [by apply Hne|]. by apply Hn.
  - apply (mono_trans _ _ _ _ c1); [done|]. split_and!; try done. intros u. rewrite HL. fold (L u). split_and!; [apply HV| |apply HG].
    rewrite HLL. by destruct (decide (u = t)) as [->|?].
  - apply (safe_lower G fwd start L _ s t w V Gp Hs Hin); try (rewrite HLL, decide_True by done); try lia; try done.
    intros x Hx. by rewrite HLL, decide_False.
Qed.

Lemma over_all_spec eps call iter s ns : forall c m z, let L := lkc call c in
  dat true call iter None c m z -> kin eps call c m -> hvalid c -> vok L -> bok nobody L -> iok (pend s ns) (current call c) L ->
  safe L s -> sV (L s) < INFINITECOST -> (forall tw, tw ∈ ns -> tw ∈ G s) -> 0 <= call -> 0 < iter ->
  exists c' m' z', steps_all (over_step e fwd eps iter call s) ns c = Ok c' /\ let L' := lkc call c' in
    dat true call iter None c' m' z' /\ kin eps call c' m' /\ hvalid c' /\ vok L' /\ bok nobody L' /\ iok noedge (current call c') L' /\
    mono call c c' /\ (forall x, safe L x -> safe L' x).
Proof using Hge.
  induction ns as [|[t w] ns IH]; intros c m z L D K Hv V B I Hs Hf Hns Hc Hit; cbn [steps_all].
  - exists c, m, z. split; [done|]. cbv zeta. split_and!; try done. intros a b w Hab Ha Hn. apply I; try done. intros [_ Hin]. by apply elem_of_nil in Hin.
  - destruct (over_step_spec eps call iter s t w ns c m z D K Hv V B I Hs Hf) as (c1&m1&z1&E1&D1&K1&Hv1&V1&B1&I1&M1&S1); try done.
    { apply Hns. by left. }
    rewrite E1. cbn [obind].
    destruct (IH c1 m1 z1 D1 K1 Hv1 V1 B1 I1) as (c2&m2&z2&E2&D2&K2&Hv2&V2&B2&I2&M2&S2); try done.
    { by apply S1. }
    { destruct M1 as (M1&_). destruct (M1 s) as (->&_). done. }
    { intros tw Htw. apply Hns. by right. }
    exists c2, m2, z2. split; [done|]. cbv zeta. split_and!; try done; [by eapply mono_trans|]. intros x Hx. by apply S2, S1.
Qed.

(** * Underconsistent expansion *)
Definition kids (L : nat -> astate) (s : nat) (ns : list (nat * Z)) : nat -> Prop := fun t => bp (L t) = Some s /\ exists w, (t, w) ∈ ns.
(** [s] was underconsistent in L0 and now has v = INF; [c] is an intermediate state. *)
Record uinv (eps : Q) (call iter : Z) (s : nat) (L0 : nat -> astate) (ns : list (nat * Z)) (c : core) (m : gmap nat ckey) (z : list (nat * nat)) : Prop := {
  u_dat : dat true call iter None c m z;
  u_kin : kin eps call c m;
  u_hv : hvalid c;
  u_vok : vok (lkc call c);
  u_bok : bok (kids (lkc call c) s ns) (lkc call c);
  u_iok : iok noedge (current call c) (lkc call c);
  u_inf : sV (lkc call c s) = INFINITECOST;
  u_v : forall x, x <> s -> sV (lkc call c x) = sV (L0 x);
  u_i : forall x, sIter (lkc call c x) = sIter (L0 x);
  u_safe : forall x, safe L0 x -> lkc call c x = L0 x;
  u_kid : forall t, bp (lkc call c t) = Some s -> sG (lkc call c t) < INFINITECOST -> exists w, (t, w) ∈ G s /\ sV (L0 s) + w <= sG (lkc call c t);
  u_psi : hcons G (heur fwd e) -> forall B, psi (heur fwd e) B L0 -> psi (heur fwd e) B (lkc call c)
}.
Lemma under_step_spec eps call iter s L0 t w ns c m z : vok L0 -> sV (L0 s) < sG (L0 s) -> hcons G (heur fwd e) ->
  uinv eps call iter s L0 ((t, w) :: ns) c m z -> (t, w) ∈ G s -> 0 <= call -> 0 < iter ->
  exists c' m' z', under_step e fwd eps iter call s c (t, w) = Ok c' /\ uinv eps call iter s L0 ns c' m' z' /\
    (forall u, is_Some (cSt c !! u) -> is_Some (cSt c' !! u)) /\ (forall u, current call c u -> current call c' u).
Proof using Hge HP HPI.
  intros V0 Hu0 HC U Hin Hc Hit. destruct (ge_edge _ _ _ _ Hge s t w Hin) as [Ht Hw].
  destruct (get_refresh_d e fwd true call iter c m z t (u_dat _ _ _ _ _ _ _ _ _ U) Hc Ht) as (c1&Eg&D1&Hv1&Hcur&HL&Hp&Hpc).
  specialize (Hv1 (u_hv _ _ _ _ _ _ _ _ _ U)). unfold under_step. cbn [fst snd].
  destruct (dlift DBadState (GetState e fwd call true c t)) as [c0| | |] eqn:E0; try discriminate. cbn [obind] in Eg |- *.
  rewrite Eg. cbn [obind]. rewrite (dlift_ok _ _ _ (rdst_current e fwd call c1 t Hcur)). cbn [obind]. clear E0 Eg c0.
  assert (uinv eps call iter s L0 ((t, w) :: ns) c1 m z) as U1.
  { destruct U. split; try done; try (intros; rewrite ?HL in *; auto; fail).
    - intros u k Hk. rewrite HL. by apply u_kin0.
    - by apply (vok_ext (lkc call c)).
    - intros x. unfold kids. rewrite HL. intros Hx Hf Hn. destruct (u_bok0 x Hx Hf Hn) as (p&w'&?&?&?). exists p, w'. by rewrite HL.
    - by apply (iok_ext _ (current call c) _ (lkc call c)).
    - intros HC' B HB u. rewrite HL. by apply (u_psi0 HC' B HB). }
  clear U HL D1 Hv1. case_bool_decide as Hb.
  2:{ exists c1, m, z. split; [done|]. split; [|done]. destruct U1. split; try done.
      intros x Hx Hf Hn. apply u_bok0; try done. intros [Hbx (w'&[[= -> ->]|Hin']%elem_of_cons)]; [done|]. apply Hn. split; [done|eauto]. }
  pose proof (u_vok _ _ _ _ _ _ _ _ _ U1) as V1. set (L := lkc call c1) in *.
  assert (t <> start) as Hts. { intros ->. by rewrite (vo_b _ _ _ V1) in Hb. }
  destruct (recompute_spec G e fwd E Hge call c1 t Hcur) as (a&E2&EV&EI&EC&EH&EM&ER&ED).
  { intros p wp Hpw. split; [by apply (HPI t p wp)|]. apply (HP t p wp Hts) in Hpw. by destruct (ge_edge _ _ _ _ Hge _ _ _ Hpw). }
  { intros p. apply V1. }
  rewrite E2. cbn [obind]. fold (L t) in EV, EI, EH. assert (forall p, lkc call c1 p = L p) as Hfold by done.
  destruct (set_usm true eps call iter c1 m z t a (u_dat _ _ _ _ _ _ _ _ _ U1) Hit Hcur EC EI) as (c2&m2&z2&E3&D2&HL2&K2&Hv2&Hp2&Hc2&_).
  exists c2, m2, z2. split; [done|]. split; [|split; auto].
  assert (forall x, lkc call c2 x = if decide (x = t) then a else L x) as HLL. { intros x. by rewrite HL2. }
  assert (forall x, sV (lkc call c2 x) = sV (L x)) as HV. { intros x. rewrite HLL. by destruct (decide (x = t)) as [->|?]. }
  assert (forall p wp, (t, wp) ∈ G p -> sG a <= sV (L p) + wp) as Hmin.
  { intros p wp Hpw. apply EM. by apply (HP t p wp Hts). }
  assert (0 <= sG a) as Hga.
  { destruct ED as [->|(p&wp&Hpw&_&->)]; [unfold INFINITECOST; lia|]. apply (HP t p wp Hts) in Hpw.
    pose proof (Gp _ _ _ Hpw). rewrite Hfold. pose proof (vo_v _ _ _ V1 p). lia. }
  assert (sG a < INFINITECOST -> exists p wp, p <> s /\ bp a = Some p /\ (t, wp) ∈ G p /\ sG a = sV (L p) + wp) as Hbest.
  { intros Hf. destruct ED as [Hi|(p&wp&Hpw&Hb'&Hg)]; [lia|]. exists p, wp. rewrite (HP t p wp Hts) in Hpw. split_and!; try done.
    intros ->. rewrite Hfold in Hg. pose proof (u_inf _ _ _ _ _ _ _ _ _ U1) as Hi. fold L in Hi. pose proof (Gp _ _ _ Hpw). lia. }
  assert (~ safe L0 t) as Hns.
  { intros Hst. pose proof (u_safe _ _ _ _ _ _ _ _ _ U1 t Hst) as Heq. fold (L t) in Heq. rewrite Heq in Hb.
    inversion Hst as [|x p w' ? Hbp Hsp]; [congruence|subst x]. rewrite Hb in Hbp. injection Hbp as <-.
    pose proof (safe_nu _ _ _ _ _ V0 Hsp). lia. }
  split.
  - done.
  - apply K2, U1.
  - apply Hv2; [apply U1|]. rewrite EH. apply lk_H, U1.
  - split.
    + intros x. rewrite HLL. destruct (decide (x = t)) as [->|?]; [lia|apply V1].
    + intros x. rewrite HV. apply V1.
    + rewrite HLL, decide_False by done. apply V1.
    + rewrite HLL, decide_False by done. apply V1.
  - intros x. unfold kids. rewrite HLL. destruct (decide (x = t)) as [->|Hxt].
    + intros _ Hf _. destruct (Hbest Hf) as (p&wp&Hps&Hb'&Hpw&Hg). exists p, wp. rewrite HV. split_and!; try done. lia.
    + intros Hx Hf Hn. destruct (u_bok _ _ _ _ _ _ _ _ _ U1 x Hx Hf) as (p&w'&?&?&?).
      { intros [Hbx (w'&[[= -> ->]|Hin']%elem_of_cons)]; [done|]. apply Hn. split; [done|eauto]. }
      exists p, w'. rewrite HV. done.
  - intros p x wx Hpx. rewrite HV. intros Hf _. destruct (u_iok _ _ _ _ _ _ _ _ _ U1 p x wx Hpx Hf) as [I1 I2]; [intros []|].
    split; [by apply Hc2|]. rewrite HLL. destruct (decide (x = t)) as [->|?]; [by apply Hmin|done].
  - rewrite HV. apply U1.
  - intros x Hx. rewrite HV. by apply U1.
  - intros x. rewrite HLL. destruct (decide (x = t)) as [->|?]; [|apply U1]. rewrite EI. apply U1.
  - intros x Hx. rewrite HLL. destruct (decide (x = t)) as [->|?]; [done|]. by apply U1.
  - intros x. rewrite HLL. destruct (decide (x = t)) as [->|?]; [|apply U1]. intros Hbx Hf.
    destruct (Hbest Hf) as (p&wp&Hps&Hb'&_). congruence.
  - intros HC' B HB u. rewrite HV, HLL. destruct (decide (u = t)) as [->|Hut].
    2:{ by apply (u_psi _ _ _ _ _ _ _ _ _ U1 HC' B HB). }
    intros Hlt. destruct (decide (sV (L t) < sG (L t))) as [Hut|Hnu].
    { by apply (u_psi _ _ _ _ _ _ _ _ _ U1 HC' B HB). }
    assert (sG (L t) < INFINITECOST) as Hf. { lia. }
    destruct (u_kid _ _ _ _ _ _ _ _ _ U1 t Hb Hf) as (w'&Hin'&Hle). fold (L t) in Hle.
    pose proof (HB s Hu0). pose proof (HC _ _ _ Hin'). lia.
Qed.
Lemma under_all_spec eps call iter s L0 ns : vok L0 -> sV (L0 s) < sG (L0 s) -> hcons G (heur fwd e) -> 0 <= call -> 0 < iter ->
  forall c m z, uinv eps call iter s L0 ns c m z -> (forall tw, tw ∈ ns -> tw ∈ G s) ->
  exists c' m' z', steps_all (under_step e fwd eps iter call s) ns c = Ok c' /\ uinv eps call iter s L0 [] c' m' z' /\
    (forall u, is_Some (cSt c !! u) -> is_Some (cSt c' !! u)) /\ (forall u, current call c u -> current call c' u).
Proof using Hge HP HPI.
  intros V0 Hu0 HC Hc Hit. induction ns as [|[t w] ns IH]; intros c m z U Hns; cbn [steps_all].
  - exists c, m, z. done.
  - destruct (under_step_spec eps call iter s L0 t w ns c m z V0 Hu0 HC U) as (c1&m1&z1&E1&U1&P1&C1); try done.
    { apply Hns. by left. }
    rewrite E1. cbn [obind]. destruct (IH c1 m1 z1 U1) as (c2&m2&z2&E2&U2&P2&C2).
    { intros tw Htw. apply Hns. by right. }
    exists c2, m2, z2. split_and!; auto.
Qed.
End search.
