(** Expansions, the loop of ComputePath, ComputePath, BuildNewOPENList, Reevaluatefvals of AD*. *)
From Coq Require Import ZifyBool ZifyNat QArith Qround Lqa.
From Verif Require Import Base KeyModel HeapModel HeapProofs ListModel ListProofs ListSpec AngleModel AngleProofs AraModel AraSpec AraProofs AdModel AdSpec AdAbs AdProofs AdProofs2.
Local Open Scope Z_scope.

Lemma sum_mono (f g : nat -> nat) l : (forall x, (f x <= g x)%nat) -> (sum_list_with f l <= sum_list_with g l)%nat.
Proof. intros H. induction l as [|x l IH]; cbn; [lia|]. specialize (H x). lia. Qed.
Lemma sum_strict (f g : nat -> nat) l s : (forall x, (f x <= g x)%nat) -> (f s < g s)%nat -> s ∈ l -> (sum_list_with f l < sum_list_with g l)%nat.
Proof.
  intros H Hs Hin. induction l as [|x l IH]; [by apply elem_of_nil in Hin|]. cbn. pose proof (H x). pose proof (sum_mono f g l H).
  apply elem_of_cons in Hin as [<-|Hin]; [lia|]. specialize (IH Hin). lia.
Qed.
(** How often a state may still be expanded. *)
Definition mu (iter : Z) (a : astate) : nat := if sIter a =? iter then 0%nat else if sV a =? INFINITECOST then 1%nat else 2%nat.

Set Default Proof Using "All".
Section search.
Context (G : nat -> list (nat * Z)) (e : aenv) (fwd abs : bool) (E : Q) (start goal : nat).
Context (Hge : good_env fwd E G e).
Context (HN : forall s, (abs = true -> s <> goal) -> snext e fwd s = G s).
Context (HP : prev_ok G e fwd start) (HPI : prev_in e fwd start).
Context (HC : hcons G (heur fwd e)) (H0 : heur fwd e goal = 0).
Notation inz z s := (s ∈ z.*2).
Notation lkc := (lk e fwd).
Notation H s := (heur fwd e s).
Notation bp a := (get_bp fwd a).
Notation vok := (vok fwd start).
Notation bok := (bok G fwd start).
Notation iok := (iok G).
Notation safe := (safe G fwd start).
Notation dat := (dat e fwd).
Notation kin := (kin e fwd).
Notation hvalid := (hvalid e fwd).
Notation psi := (psi (heur fwd e)).
Notation phi := (phi G start).

Definition satv (W : Z -> Z) (hh : nat -> Z) (L : nat -> astate) : Prop :=
  safe L goal /\ phi W hh (sG (L goal)) L /\ psi (sG (L goal)) L.
(** What no step of ComputePath destroys. *)
Definition xrel (call : Z) (c c' : core) : Prop :=
  (forall x, safe (lkc call c) x -> safe (lkc call c') x /\ sG (lkc call c' x) <= sG (lkc call c x)) /\
  (forall W hh, (forall x, H x <= hh x) -> satv W hh (lkc call c) -> satv W hh (lkc call c')) /\
  (forall u, is_Some (cSt c !! u) -> is_Some (cSt c' !! u)) /\ (forall u, current call c u -> current call c' u) /\
  (sV (lkc call c goal) = INFINITECOST -> abs = true -> sV (lkc call c' goal) = INFINITECOST).
Lemma xrel_refl call c : xrel call c c.
Proof. split_and!; try done. Qed.
Lemma xrel_trans call c1 c2 c3 : xrel call c1 c2 -> xrel call c2 c3 -> xrel call c1 c3.
Proof.
  intros (A1&A2&A3&A4&A5) (B1&B2&B3&B4&B5). split_and!; auto.
  intros x Hx. destruct (A1 x Hx) as [Hx2 ?]. destruct (B1 x Hx2). split; [done|lia].
Qed.

Section eps.
Context (eps : Q) (He : (1 <= eps <= E)%Q).
Definition hh (x : nat) : Z := toint (eps * inject_Z (H x)).
Lemma hh_rng x : H x <= hh x < 2147483648 /\ 0 <= H x.
Proof.
  pose proof (ge_heur _ _ _ _ Hge x) as Hx. pose proof (ge_heurE _ _ _ _ Hge x) as HxE.
  destruct (toint_nonneg E eps ltac:(lra) (H x) Hx HxE) as [T R]. unfold hh. split; [|done]. split; [|lia]. rewrite T.
  rewrite <- (Qfloor_Z (H x)) at 1. apply Qfloor_resp_le.
  assert (0 <= inject_Z (H x))%Q by (rewrite <- (Zle_Qle 0); done). nra.
Qed.
Lemma hh_step s t w : (t, w) ∈ G s -> hh s <= inflate eps w + hh t.
Proof.
  intros Hin. apply (toint_step E); try apply Hge; [lra|]. by apply HC.
Qed.
Lemma hh_goal : hh goal = 0.
Proof.
  unfold hh. rewrite H0. destruct (toint_nonneg E eps ltac:(lra) 0) as [T _]; [lia| |].
  - unfold inject_Z, Qlt. cbn. destruct E as [n d]. cbn. lia.
  - rewrite T. assert (eps * inject_Z 0 == 0)%Q as -> by (unfold inject_Z; ring). done.
Qed.

Record sinv (call iter : Z) (c : core) (m : gmap nat ckey) (z : list (nat * nat)) : Prop := {
  s_dat : dat true call iter None c m z;
  s_kin : kin eps call c m;
  s_hv : hvalid c;
  s_vok : vok (lkc call c);
  s_bok : bok nobody (lkc call c);
  s_iok : iok noedge (current call c) (lkc call c);
  s_safe : forall x, sIter (lkc call c x) = iter -> safe (lkc call c) x;
  s_bnd : forall x C, sIter (lkc call c x) = iter -> sr G (inflate eps) start x C -> sV (lkc call c x) <= C
}.

Section inv.
Context (call iter : Z) (c : core) (m : gmap nat ckey) (z : list (nat * nat)) (I : sinv call iter c m z).
Notation L := (lkc call c).
Lemma key_over x : sG (L x) <= sV (L x) -> ad_key eps (L x) = mkKey (sG (L x) + hh x) 1.
Proof.
  intros Hx. unfold ad_key. destruct (sG (L x) <=? sV (L x)) eqn:Ex; [|lia]. rewrite (lk_H e fwd call c x (s_hv _ _ _ _ _ I)). fold (hh x).
  pose proof (hh_rng x). pose proof (vo_g _ _ _ (s_vok _ _ _ _ _ I) x). unfold u32. rewrite Z.mod_small; [done|]. unfold INFINITECOST in *. lia.
Qed.
Lemma key_under x : sV (L x) < sG (L x) -> ad_key eps (L x) = mkKey (sV (L x) + H x) 0.
Proof.
  intros Hx. unfold ad_key. destruct (sG (L x) <=? sV (L x)) eqn:Ex; [lia|]. rewrite (lk_H e fwd call c x (s_hv _ _ _ _ _ I)).
  pose proof (hh_rng x). pose proof (vo_v _ _ _ (s_vok _ _ _ _ _ I) x). unfold u32. rewrite Z.mod_small; [done|]. unfold INFINITECOST in *. lia.
Qed.
Lemma over_open x C : sr G (inflate eps) start x C -> sG (L x) <= C < sV (L x) -> m !! x = Some (mkKey (sG (L x) + hh x) 1).
Proof.
  intros Hr Hx. pose proof (s_dat _ _ _ _ _ I) as D.
  assert (sIter (L x) <> iter) as Hn. { intros Hn. pose proof (s_bnd _ _ _ _ _ I x C Hn Hr). lia. }
  destruct (proj2 (da_mem _ _ _ _ _ _ _ _ _ D x ltac:(done)) ltac:(lia)) as [[k Hk]|Hz].
  - rewrite Hk. f_equal. rewrite (s_kin _ _ _ _ _ I x k Hk). apply key_over. lia.
  - exfalso. by apply Hn, (da_z _ _ _ _ _ _ _ _ _ D eq_refl).
Qed.
Lemma under_open u : sV (L u) < sG (L u) -> sIter (L u) <> iter /\ m !! u = Some (mkKey (sV (L u) + H u) 0).
Proof.
  intros Hu. pose proof (s_dat _ _ _ _ _ I) as D.
  assert (sIter (L u) <> iter) as Hn.
  { intros Hn. pose proof (safe_nu _ _ _ _ _ (s_vok _ _ _ _ _ I) (s_safe _ _ _ _ _ I u Hn)). lia. }
  split; [done|]. destruct (proj2 (da_mem _ _ _ _ _ _ _ _ _ D u ltac:(done)) ltac:(lia)) as [[k Hk]|Hz].
  - rewrite Hk. f_equal. rewrite (s_kin _ _ _ _ _ I u k Hk). by apply key_under.
  - exfalso. by apply Hn, (da_z _ _ _ _ _ _ _ _ _ D eq_refl).
Qed.

Definition above (K : Z) : Prop := forall x k, m !! x = Some k -> K < k0 k \/ K = k0 k /\ 1 <= k1 k.
Lemma above_psi K : above K -> psi K L.
Proof.
  intros A u Hu. destruct (under_open u Hu) as [_ Hk]. destruct (A u _ Hk) as [?|[_ ?]]; cbn in *; lia.
Qed.
Lemma above_safe K y : above K -> sG (L y) <= sV (L y) -> sG (L y) < INFINITECOST -> sG (L y) + H y <= K -> safe L y.
Proof.
  intros A. apply (safe_key G (heur fwd e) fwd start L K); [apply I|by eapply Gp|done|apply I|]. by apply above_psi.
Qed.
Lemma above_front K : (forall x k, m !! x = Some k -> K <= k0 k) -> forall y C, sr G (inflate eps) start y C -> sV (L y) <= C \/ K <= C + hh y.
Proof.
  intros A y C Hr. destruct (frontier_abs G fwd start L (current call c) (inflate eps) hh) with (y := y) (C := C) as [?|(x&Cx&Hx&Hg&Hle)];
    [apply I|apply I|intros; apply inflate_ge|apply hh_step|by eapply Gp|done|by left|right].
  pose proof (A x _ (over_open x Cx Hx Hg)) as Hk. cbn in Hk. lia.
Qed.
Lemma above_weak K : above K -> forall x k, m !! x = Some k -> K <= k0 k.
Proof. intros A x k Hk. destruct (A x k Hk); lia. Qed.
End inv.

(** Expanding the state with the least key. *)
Lemma expand_spec call iter c m z s k h' : sinv call iter c m z -> 0 < iter -> 0 <= call -> (abs = true -> s <> goal) -> m !! s = Some k ->
  (forall x k', m !! x = Some k' -> kle ckeyops k k') -> k0 k < INFINITECOST -> rep h' (delete s m) -> ord ckeyops 1 h' ->
  exists c' m' z', ad_expand e fwd eps iter call s (mkCore (cSt c) h' (cInc c)) = Ok c' /\ sinv call iter c' m' z' /\ xrel call c c' /\
    (forall x, (mu iter (lkc call c' x) <= mu iter (lkc call c x))%nat) /\ (mu iter (lkc call c' s) < mu iter (lkc call c s))%nat.
Proof.
  intros I Hit Hc Habs Hk Hmin Hk0 Rh Oh. pose proof (s_dat _ _ _ _ _ I) as D. pose proof (s_vok _ _ _ _ _ I) as V.
  pose proof (da_cur _ _ _ _ _ _ _ _ _ D s (or_introl (mk_is_Some _ _ Hk))) as Hcur.
  assert (sIter (lkc call c s) <> iter) as Hns.
  { intros Hn. pose proof (da_cl _ _ _ _ _ _ _ _ _ D Hit s Hn). congruence. }
  assert (sV (lkc call c s) <> sG (lkc call c s)) as Hne. { apply (da_mem _ _ _ _ _ _ _ _ _ D s ltac:(done)). left. eauto. }
  unfold ad_expand. assert (rdst (mkCore (cSt c) h' (cInc c)) s = Ok (lkc call c s)) as -> by exact (rdst_current e fwd call c s Hcur).
  cbn [dlift obind]. destruct (sV (lkc call c s) =? sG (lkc call c s)) eqn:Evg; [lia|]. clear Evg.
  set (L := lkc call c) in *. pose proof (vo_g _ _ _ V) as VG. pose proof (vo_v _ _ _ V) as VV.
  destruct (sV (L s) >? sG (L s)) eqn:Eov.
  - (* overconsistent *)
    assert (k = mkKey (sG (L s) + hh s) 1) as Ek. { rewrite (s_kin _ _ _ _ _ I s k Hk). apply (key_over call iter c m z I). fold (L s). lia. }
    pose proof (hh_rng s) as Hr.
    assert (above m (sG (L s) + hh s)) as A.
    { intros x k' Hk'. pose proof (Hmin x k' Hk') as Hle. rewrite Ek in Hle. unfold kle in Hle. cbn in Hle. unfold key_lt in Hle. cbn in Hle. lia. }
    rewrite Ek in Hk0. cbn in Hk0.
    assert (safe L s) as Hss. { apply (above_safe call iter c m z I (sG (L s) + hh s) s A); fold (L s); lia. }
    assert (forall C, sr G (inflate eps) start s C -> sG (L s) <= C) as Hbs.
    { intros C Hr'. destruct (above_front call iter c m z I (sG (L s) + hh s) (above_weak call iter c m z I _ A) s C Hr') as [Hx|Hx]; fold (L s) in Hx; lia. }
    set (a := mkA _ _ _ _ _ _ _ _). assert (sCall a = call) as Ca by apply lk_call.
    pose proof (dat_take e fwd true call iter c m z s a h' D (mk_is_Some _ _ Hk) Ca ltac:(cbn; lia) Rh Oh) as D0.
    set (c1 := set_st (mkCore (cSt c) h' (cInc c)) s a) in *.
    assert (forall x, lkc call c1 x = if decide (x = s) then a else L x) as HL.
    { intros x. unfold c1. rewrite (lk_set e fwd call _ s a x Ca). by destruct (decide (x = s)). }
    pose proof (da_disj _ _ _ _ _ _ _ _ _ D s (mk_is_Some _ _ Hk)) as Hdj.
    assert (dat true call iter None c1 (delete s m) z) as D1.
    { destruct D0. split; try done. intros x _. destruct (decide (x = s)) as [->|Hx].
      - rewrite HL, decide_True by done. cbn. split; [|lia]. rewrite lookup_delete. by intros [[? [=]]|Hz].
      - apply da_mem. congruence. }
    assert (forall x, x <> s -> lkc call c1 x = L x) as HLn by (intros x Hx; rewrite HL; by rewrite decide_False).
    assert (lkc call c1 s = a) as HLs by (rewrite HL; by rewrite decide_True).
    assert (forall x, sG (lkc call c1 x) = sG (L x)) as HG1. { intros x. rewrite HL. by destruct (decide (x = s)) as [->|?]. }
    assert (forall x, sV (lkc call c1 x) <= sV (L x)) as HV1. { intros x. rewrite HL. destruct (decide (x = s)) as [->|?]; cbn; lia. }
    assert (forall x, bp (lkc call c1 x) = bp (L x)) as HB1.
    { intros x. rewrite HL. destruct (decide (x = s)) as [->|?]; [|done]. unfold a, get_bp. by destruct fwd. }
    assert (vok (lkc call c1)) as V1.
    { split.
      - intros x. rewrite HG1. apply VG.
      - intros x. rewrite HL. destruct (decide (x = s)) as [->|?]; [apply VG|apply VV].
      - rewrite HG1. apply V.
      - rewrite HB1. apply V. }
    assert (kin eps call c1 (delete s m)) as K1.
    { intros x k' Hx. destruct (decide (x = s)) as [->|Hxs]; [by rewrite lookup_delete in Hx|]. rewrite lookup_delete_ne in Hx by done.
      rewrite HLn by done. by apply (s_kin _ _ _ _ _ I). }
    assert (hvalid c1) as Hv1. { apply hvalid_set; [apply I|]. cbn. apply lk_H, I. }
    assert (bok nobody (lkc call c1)) as B1.
    { intros t Ht. rewrite HG1, HB1. intros Hf Hn. destruct (s_bok _ _ _ _ _ I t Ht Hf Hn) as (p&w&?&?&?). exists p, w. split_and!; try done.
      pose proof (HV1 p). fold (L p) (L t) in *. lia. }
    assert (iok (pend s (snext e fwd s)) (current call c1) (lkc call c1)) as I1.
    { intros x t w Hx Hf Hn. rewrite HG1. assert (x <> s) as Hxs. { intros ->. apply Hn. split; [done|]. by rewrite HN. }
      rewrite HLn in * by done. destruct (s_iok _ _ _ _ _ I x t w Hx Hf) as [? ?]; [intros []|]. split; [|done].
      by apply (set_current call c s a t h' (cInc c)). }
    assert (forall x, safe L x -> safe (lkc call c1) x) as S1.
    { apply (safe_close G fwd start L (lkc call c1) s HLn); [by rewrite HLs|by rewrite HLs|apply HB1|lia]. }
    destruct (over_all_spec G e fwd E start Hge eps call iter s (snext e fwd s) c1 (delete s m) z D1 K1 Hv1 V1 B1 I1) as (c2&m2&z2&E2&D2&K2&Hv2&V2&B2&I2&M2&S2); try done.
    { by apply S1. }
    { rewrite HLs. cbn. lia. }
    { intros tw. by rewrite HN. }
    exists c2, m2, z2. split; [exact E2|]. destruct M2 as (M2&P2&C2).
    assert (forall x, sIter (lkc call c2 x) = if decide (x = s) then iter else sIter (L x)) as HI2.
    { intros x. destruct (M2 x) as (_&->&_). rewrite HL. by destruct (decide (x = s)). }
    assert (forall x, sV (lkc call c2 x) = if decide (x = s) then sG (L s) else sV (L x)) as HV2.
    { intros x. destruct (M2 x) as (->&_&_). rewrite HL. by destruct (decide (x = s)). }
    assert (forall x, sG (lkc call c2 x) <= sG (L x)) as HG2. { intros x. rewrite <- (HG1 x). apply M2. }
    assert (forall x, safe L x -> safe (lkc call c2) x) as S3 by (intros x Hx; by apply S2, S1).
    split; [|split; [|split]].
    + split; try done.
      * intros x. rewrite HI2. destruct (decide (x = s)) as [->|?]; [by auto|]. intros Hx. by apply S3, (s_safe _ _ _ _ _ I).
      * intros x C. rewrite HI2, HV2. destruct (decide (x = s)) as [->|?]; [by auto|]. apply (s_bnd _ _ _ _ _ I).
    + split_and!.
      * intros x Hx. split; [by apply S3|apply HG2].
      * intros W hg Hhg (Q1&Q2&Q3). split_and!; [by apply S3| |].
        -- eapply phi_mono; [exact Q2|apply HG2|]. intros y. left. rewrite HV2. fold (L y). destruct (decide (y = s)) as [->|?]; lia.
        -- intros u. pose proof (HG2 u). pose proof (HG2 goal). rewrite HV2. destruct (decide (u = s)) as [->|?]; [lia|].
           intros Hu. specialize (Q3 u). fold (L u) (L goal) in Q3. lia.
      * intros u Hu. apply P2. by apply (set_present c s a u h' (cInc c)).
      * intros u Hu. apply C2. by apply (set_current call c s a u h' (cInc c)).
      * intros Hg Ha. rewrite HV2, decide_False; [done|]. intros ->. by apply Habs.
    + intros x. unfold mu. rewrite HI2, HV2. destruct (decide (x = s)) as [->|?]; [rewrite Z.eqb_refl; lia|done].
    + unfold mu. rewrite HI2, decide_True by done. rewrite Z.eqb_refl. destruct (sIter (L s) =? iter) eqn:E0; [lia|]. destruct (sV (L s) =? INFINITECOST); lia.
  - (* underconsistent *)
    assert (sV (L s) < sG (L s)) as Hu by lia.
    set (a := mkA _ _ _ _ _ _ _ _). assert (sCall a = call) as Ca by apply lk_call.
    pose proof (da_it _ _ _ _ _ _ _ _ _ D s) as Hits. fold (L s) in Hits.
    pose proof (dat_take e fwd true call iter c m z s a h' D (mk_is_Some _ _ Hk) Ca Hits Rh Oh) as D0.
    set (c1 := set_st (mkCore (cSt c) h' (cInc c)) s a) in *.
    assert (forall x, lkc call c1 x = if decide (x = s) then a else L x) as HL1.
    { intros x. unfold c1. rewrite (lk_set e fwd call _ s a x Ca). by destruct (decide (x = s)). }
    assert (forall u, current call c u -> current call c1 u) as C1. { intros u Hu'. by apply (set_current call c s a u h' (cInc c)). }
    assert (forall u, is_Some (cSt c !! u) -> is_Some (cSt c1 !! u)) as P1. { intros u Hu'. by apply (set_present c s a u h' (cInc c)). }
    destruct (usm_spec G e fwd E Hge true eps call iter c1 (delete s m) z s D0 Hit (C1 s Hcur)) as (c2&m2&z2&E2&ES&D2&HK2).
    rewrite E2. cbn [obind].
    assert (forall x, lkc call c2 x = if decide (x = s) then a else L x) as HL. { intros x. rewrite (lk_st e fwd call c1 c2 x ES). apply HL1. }
    assert (forall x, x <> s -> lkc call c2 x = L x) as HLn by (intros x Hx; rewrite HL; by rewrite decide_False).
    assert (lkc call c2 s = a) as HLs by (rewrite HL; by rewrite decide_True).
    assert (forall x, sG (lkc call c2 x) = sG (L x)) as HG1. { intros x. rewrite HL. by destruct (decide (x = s)) as [->|?]. }
    assert (forall x, bp (lkc call c2 x) = bp (L x)) as HB1.
    { intros x. rewrite HL. destruct (decide (x = s)) as [->|?]; [|done]. unfold a, get_bp. by destruct fwd. }
    assert (forall x, safe L x -> x <> s) as Hsns. { intros x Hx ->. pose proof (safe_nu _ _ _ _ _ V Hx). lia. }
    assert (forall u, current call c u -> current call c2 u) as C2. { intros u Hu'. apply (st_current call c1 c2 u ES). auto. }
    assert (uinv G e fwd start eps call iter s L (snext e fwd s) c2 m2 z2) as U.
    { split.
      - done.
      - intros x k' Hx. destruct (HK2 x k' Hx) as [[Hxs Hm]|[-> ->]].
        + rewrite lookup_delete_ne in Hm by done. rewrite HLn by done. by apply (s_kin _ _ _ _ _ I).
        + by rewrite HL1, HLs, decide_True.
      - apply (hvalid_st e fwd c1); [done|]. apply hvalid_set; [apply I|]. cbn. apply lk_H, I.
      - split.
        + intros x. rewrite HG1. apply VG.
        + intros x. rewrite HL. destruct (decide (x = s)) as [->|?]; [cbn; unfold INFINITECOST; lia|apply VV].
        + rewrite HG1. apply V.
        + rewrite HB1. apply V.
      - intros t Ht. unfold kids. rewrite HG1, HB1. intros Hf Hn.
        destruct (s_bok _ _ _ _ _ I t Ht Hf) as (p&w&Hb&Hin&Hle); [intros []|]. fold (L t) (L p) in *. exists p, w. split_and!; try done.
        destruct (decide (p = s)) as [->|Hps]; [|by rewrite HLn]. exfalso. apply Hn. split; [done|]. exists w. by rewrite HN.
      - intros x t w Hx Hf _. rewrite HG1. destruct (decide (x = s)) as [->|Hxs]; [rewrite HLs in Hf; cbn in Hf; lia|].
        rewrite HLn in * by done. destruct (s_iok _ _ _ _ _ I x t w Hx Hf) as [? ?]; [intros []|]. auto.
      - by rewrite HLs.
      - intros x Hx. by rewrite HLn.
      - intros x. rewrite HL. by destruct (decide (x = s)) as [->|?].
      - intros x Hx. apply HLn. by apply Hsns.
      - intros t. rewrite HG1, HB1. intros Hb Hf. assert (t <> start) as Hts. { intros ->. by rewrite (vo_b _ _ _ V) in Hb. }
        destruct (s_bok _ _ _ _ _ I t Hts Hf) as (p&w&Hb'&Hin&Hle); [intros []|]. fold (L t) in *. rewrite Hb in Hb'. injection Hb' as <-. eauto.
      - intros _ B HB u. destruct (decide (u = s)) as [->|Hus]; [rewrite HLs; cbn; specialize (VG s); lia|]. rewrite HLn by done. apply HB. }
    destruct (under_all_spec G e fwd E start Hge HP HPI eps call iter s L (snext e fwd s) V Hu HC Hc Hit c2 m2 z2 U) as (c3&m3&z3&E3&U3&P3&C3).
    { intros tw. by rewrite HN. }
    exists c3, m3, z3. split; [exact E3|]. destruct U3.
    assert (forall x, safe L x -> safe (lkc call c3) x) as S3 by (apply safe_frame; done).
    split; [|split; [|split]].
    + split; try done.
      * intros t Ht Hf _. apply u_bok; try done. intros [_ (w&Hin)]. by apply elem_of_nil in Hin.
      * intros x. rewrite u_i. intros Hx. by apply S3, (s_safe _ _ _ _ _ I).
      * intros x C. rewrite u_i. intros Hx Hr. rewrite u_safe by by apply (s_safe _ _ _ _ _ I). by apply (s_bnd _ _ _ _ _ I).
    + split_and!.
      * intros x Hx. split; [by apply S3|]. by rewrite u_safe.
      * intros W hg Hhg (Q1&Q2&Q3). fold L in Q1, Q2, Q3. rewrite <- (u_safe goal Q1) in Q2, Q3. split_and!; [by apply S3| |by apply u_psi].
        eapply phi_mono; [exact Q2|done|]. intros y. destruct (decide (y = s)) as [->|Hy]; [|left; by rewrite u_v].
        right. specialize (Q3 s Hu). specialize (Hhg s). lia.
      * intros u Hu'. apply P3. rewrite ES. by apply P1.
      * intros u Hu'. auto.
      * intros Hg Ha. rewrite u_v; [done|]. intros <-. by apply Habs.
    + intros x. unfold mu. rewrite u_i. fold (L x). destruct (sIter (L x) =? iter); [lia|]. destruct (decide (x = s)) as [->|Hx]; [|by rewrite u_v].
      rewrite u_inf, Z.eqb_refl. destruct (sV (L s) =? INFINITECOST); lia.
    + unfold mu. rewrite u_i. fold (L s). destruct (sIter (L s) =? iter) eqn:E0; [lia|]. rewrite u_inf, Z.eqb_refl.
      destruct (sV (L s) =? INFINITECOST) eqn:E1; [|lia]. specialize (VG s). lia.
Qed.

(** Exit of the loop: the goal's g is final for this eps. *)
Definition gdone (call : Z) (c : core) (m : gmap nat ckey) : Prop := sG (lkc call c goal) <= sV (lkc call c goal) /\ above m (sG (lkc call c goal)).
Definition gnone (call : Z) (c : core) (m : gmap nat ckey) : Prop :=
  sG (lkc call c goal) = INFINITECOST /\ sG (lkc call c goal) <= sV (lkc call c goal) /\ forall x k, m !! x = Some k -> INFINITECOST <= k0 k.
Lemma goal_key call iter c m z : sinv call iter c m z -> sG (lkc call c goal) <= sV (lkc call c goal) ->
  ad_key eps (lkc call c goal) = mkKey (sG (lkc call c goal)) 1.
Proof. intros I Hx. rewrite (key_over call iter c m z I goal Hx), hh_goal. f_equal. lia. Qed.
Lemma exit_empty call iter c z : sinv call iter c ∅ z -> gdone call c ∅.
Proof.
  intros I. split; [|intros x k; by rewrite lookup_empty]. destruct (decide (sV (lkc call c goal) < sG (lkc call c goal))) as [Hu|?]; [|lia].
  destruct (under_open call iter c ∅ z I goal Hu) as [_ Hk]. by rewrite lookup_empty in Hk.
Qed.
Lemma exit_min call iter c m z k : sinv call iter c m z -> (forall x k', m !! x = Some k' -> kle ckeyops k k') ->
  goal_open eps (lkc call c goal) k = false -> gdone call c m.
Proof.
  intros I Hmin Hgo. unfold goal_open in Hgo. apply orb_false_iff in Hgo as [Hgo Hg].
  assert (sG (lkc call c goal) <= sV (lkc call c goal)) as Hle by lia. split; [done|].
  rewrite (goal_key call iter c m z I Hle) in Hgo. intros x k' Hk'. pose proof (Hmin x k' Hk') as Hk. unfold kle in Hk. cbn in Hk.
  unfold key_lt in Hk. unfold key_gt in Hgo. cbn in *. lia.
Qed.
Lemma exit_inf call iter c m z k : sinv call iter c m z -> (forall x k', m !! x = Some k' -> kle ckeyops k k') ->
  INFINITECOST <= k0 k -> gdone call c m \/ gnone call c m.
Proof.
  intros I Hmin Hk. assert (forall x k', m !! x = Some k' -> INFINITECOST <= k0 k') as Hall.
  { intros x k' Hk'. pose proof (Hmin x k' Hk') as Hle. unfold kle in Hle. cbn in Hle. unfold key_lt in Hle. lia. }
  pose proof (vo_g _ _ _ (s_vok _ _ _ _ _ I) goal) as Hg. pose proof (vo_v _ _ _ (s_vok _ _ _ _ _ I) goal) as Hv.
  assert (sG (lkc call c goal) <= sV (lkc call c goal)) as Hle.
  { destruct (decide (sV (lkc call c goal) < sG (lkc call c goal))) as [Hu|?]; [|lia].
    destruct (under_open call iter c m z I goal Hu) as [_ Hk']. specialize (Hall _ _ Hk'). cbn in Hall. lia. }
  destruct (decide (sG (lkc call c goal) < INFINITECOST)) as [Hlt|?].
  - left. split; [done|]. intros x k' Hk'. left. specialize (Hall x k' Hk'). lia.
  - right. split_and!; [lia|done|done].
Qed.

Lemma log_spec clk call iter : 0 < iter -> 0 <= call ->
  forall fuel c m z n log, sinv call iter c m z -> current call c goal -> (abs = true -> sV (lkc call c goal) = INFINITECOST) ->
    (sum_list_with (fun x => mu iter (lkc call c x)) (seq 0 (eSize e)) < fuel)%nat ->
    exists c' m' z' n' log', ad_log e fwd fuel clk eps iter call goal c n log = Ok (c', n', log') /\
      sinv call iter c' m' z' /\ xrel call c c' /\ (n <= n')%nat /\
      (forall x, (count_occ Nat.eq_dec log' x + mu iter (lkc call c' x) <= count_occ Nat.eq_dec log x + mu iter (lkc call c x))%nat) /\
      (gdone call c' m' \/ gnone call c' m' \/ exists j, (n <= j < n')%nat /\ clk j = false).
Proof.
  intros Hit Hc. induction fuel as [|fuel IH]; intros c m z n log I Hcur Habs Hf; [lia|].
  cbn [ad_log]. rewrite (dlift_ok _ _ _ (rdst_current e fwd call c goal Hcur)). cbn [obind].
  pose proof (s_dat _ _ _ _ _ I) as D. pose proof (da_rep _ _ _ _ _ _ _ _ _ D) as DR. pose proof (da_ord _ _ _ _ _ _ _ _ _ D) as DO.
  destruct (decide (m = ∅)) as [->|Hne].
  { pose proof (proj1 (rep_empty_cur _ _ DR) eq_refl) as Hz0.
    unfold getminkeyheap, emptyheap. rewrite Hz0. cbn [Nat.eqb dlift obind negb andb].
    exists c, ∅, z, n, log. split; [done|]. split; [done|]. split; [apply xrel_refl|]. split; [lia|]. split; [done|]. left. by eapply exit_empty. }
  destruct (deletemin_spec ckeyops ckeylaws _ m DR DO Hne) as (s&k&h'&Egm&Edm&Hk&Hmin&Rh&Oh).
  destruct (getmin_spec ckeyops ckeylaws _ m DR DO Hne) as (s1&k11&Egm'&Emk'&_&_).
  assert (k11 = k) as -> by congruence. rewrite Emk'. cbn [dlift obind]. clear Egm'.
  assert (emptyheap (cOpen c) = false) as Eem.
  { unfold emptyheap. pose proof (proj2 (rep_empty_cur _ _ DR)) as Hx.
    destruct (cur (cOpen c) =? 0)%nat eqn:E0; [|done]. exfalso. apply Hne, Hx. lia. }
  rewrite Eem. cbn [negb andb].
  destruct (k0 k <? INFINITECOST) eqn:Elt; cbn [andb].
  2:{ exists c, m, z, n, log. split; [done|]. split; [done|]. split; [apply xrel_refl|]. split; [lia|]. split; [done|].
      destruct (exit_inf call iter c m z k I Hmin ltac:(lia)); auto. }
  destruct (goal_open eps (lkc call c goal) k) eqn:Ego.
  2:{ exists c, m, z, n, log. split; [done|]. split; [done|]. split; [apply xrel_refl|]. split; [lia|]. split; [done|]. left. by eapply exit_min. }
  destruct (clk n) eqn:Eclk.
  2:{ exists c, m, z, (S n), log. split; [done|]. split; [done|]. split; [apply xrel_refl|]. split; [lia|]. split; [done|]. right. right. exists n. split; [lia|done]. }
  rewrite Edm. cbn [dlift obind fst snd].
  assert (abs = true -> s <> goal) as Hsg.
  { intros Ha ->. specialize (Habs Ha). pose proof (vo_g _ _ _ (s_vok _ _ _ _ _ I) goal) as Hg.
    pose proof (s_kin _ _ _ _ _ I goal k Hk) as Ek. unfold goal_open in Ego. rewrite <- Ek in Ego. unfold key_gt in Ego. lia. }
  destruct (expand_spec call iter c m z s k h' I Hit Hc Hsg Hk Hmin ltac:(lia) Rh Oh) as (c2&m2&z2&E2&I2&X2&Mu2&Ms2).
  rewrite E2. cbn [obind].
  assert (s ∈ seq 0 (eSize e)) as Hsin.
  { destruct (da_cur _ _ _ _ _ _ _ _ _ D s (or_introl (mk_is_Some _ _ Hk))) as (b&Eb&_).
    apply elem_of_seq. destruct (da_dom _ _ _ _ _ _ _ _ _ D s b Eb). lia. }
  destruct (IH c2 m2 z2 (S n) (log ++ [s]) I2) as (c3&m3&z3&n3&log3&E3&I3&X3&Hn3&Hl3&Hd3).
  { by apply X2. }
  { intros Ha. apply X2; auto. }
  { pose proof (sum_strict _ _ (seq 0 (eSize e)) s Mu2 Ms2 Hsin). cbv beta in *. lia. }
  exists c3, m3, z3, n3, log3. split; [done|]. split; [done|]. split; [by eapply xrel_trans|]. split; [lia|]. split.
  - intros x. specialize (Hl3 x). specialize (Mu2 x). rewrite count_occ_app in Hl3. cbn in Hl3. destruct (Nat.eq_dec s x) as [<-|?]; lia.
  - destruct Hd3 as [?|[?|(j&?&?)]]; [by left|by right; left|right; right]. exists j. split; [lia|done].
Qed.

Lemma log_faithful clk call iter : forall fuel c n log,
  ad_loop e fwd fuel clk eps iter call goal c n = (do r <- ad_log e fwd fuel clk eps iter call goal c n log; Ok (r.1)).
Proof.
  induction fuel as [|fuel IH]; intros c n log; [done|]. cbn [ad_loop ad_log].
  destruct (dlift DBadState (rdst c goal)) as [ga| | |]; cbn [obind]; try done.
  destruct (dlift DHeap (getminkeyheap ckeyops (cOpen c))) as [mk| | |]; cbn [obind]; try done.
  destruct (negb (emptyheap (cOpen c)) && (k0 mk <? INFINITECOST) && goal_open eps ga mk); [|done]. destruct (clk n); [|done].
  destruct (dlift DHeap (deleteminheap ckeyops (cOpen c))) as [r| | |]; cbn [obind]; try done.
  destruct (ad_expand e fwd eps iter call r.1 (mkCore (cSt c) r.2 (cInc c))) as [c'| | |]; cbn [obind]; try done.
Qed.

Lemma gdone_sat call iter c m z : sinv call iter c m z -> gdone call c m -> sG (lkc call c goal) < INFINITECOST -> satv (inflate eps) hh (lkc call c).
Proof.
  intros I [Hv A] Hf. split_and!.
  - apply (above_safe call iter c m z I _ goal A); [done|done|]. rewrite H0. lia.
  - intros y C Hr. apply (above_front call iter c m z I); [|done]. by apply (above_weak call iter c m z I).
  - by apply (above_psi call iter c m z I).
Qed.
Lemma gdone_none call iter c m z : sinv call iter c m z -> (gdone call c m \/ gnone call c m) -> sG (lkc call c goal) = INFINITECOST ->
  forall C, sr G (inflate eps) start goal C -> INFINITECOST <= C.
Proof.
  intros I Hd Hg C Hr. assert (sG (lkc call c goal) <= sV (lkc call c goal) /\ forall x k, m !! x = Some k -> INFINITECOST <= k0 k) as [Hv A].
  { destruct Hd as [[Hv A]|(_&Hv&A)]; [|done]. split; [done|]. rewrite Hg in A. by apply (above_weak call iter c m z I). }
  destruct (above_front call iter c m z I INFINITECOST A goal C Hr) as [?|?]; [lia|]. rewrite hh_goal in *. lia.
Qed.

Lemma ComputePath_spec clk call iter c m z n : 0 < iter -> 0 <= call -> sinv call iter c m z -> is_Some (cSt c !! goal) ->
  (abs = true -> sV (lkc call c goal) = INFINITECOST) ->
  exists r c' m' z' n', ComputePath e fwd clk eps iter call (Some goal) c n = Ok (r, c', n') /\
    sinv call iter c' m' z' /\ xrel call c c' /\ current call c' goal /\ (n <= n')%nat /\
    ( (r = 1 /\ sG (lkc call c' goal) < INFINITECOST /\ satv (inflate eps) hh (lkc call c')) \/
      (r = 0 /\ sG (lkc call c' goal) = INFINITECOST /\ forall C, sr G (inflate eps) start goal C -> INFINITECOST <= C) \/
      (r = 2 /\ ((exists j, (n <= j < n')%nat /\ clk j = false) \/
                 sG (lkc call c' goal) = INFINITECOST /\ forall C, sr G (inflate eps) start goal C -> INFINITECOST <= C)) ).
Proof.
  intros Hit Hc I [a0 Ea0] Habs. unfold ComputePath. pose proof (s_dat _ _ _ _ _ I) as D.
  destruct (get_refresh_d e fwd true call iter c m z goal D Hc) as (c1&Eg&D1&Hv1&Hcur&HL&Hp&Hpc).
  { by apply (da_dom _ _ _ _ _ _ _ _ _ D goal a0). }
  assert (dlift DBadState (refresh e fwd call true c goal) = Ok c1) as ->.
  { unfold GetState in Eg. rewrite Ea0 in Eg. destruct (eSize e <=? goal)%nat; [discriminate|]. exact Eg. }
  cbn [obind]. specialize (Hv1 (s_hv _ _ _ _ _ I)).
  assert (forall x, safe (lkc call c) x -> safe (lkc call c1) x) as HS by (intros x; by apply safe_ext).
  assert (sinv call iter c1 m z) as I1.
  { destruct I. split; try done.
    - intros u k Hk. rewrite HL. by apply s_kin0.
    - by apply (vok_ext fwd start (lkc call c)).
    - by apply (bok_ext G fwd start _ (lkc call c)).
    - by apply (iok_ext G _ (current call c) _ (lkc call c)).
    - intros x. rewrite HL. auto.
    - intros x C. rewrite HL. auto. }
  assert (xrel call c c1) as X1.
  { split; [|split]; [| |split_and!; try done].
    - intros x Hx. split; [by apply HS|]. rewrite HL. lia.
    - intros W hg Hhg (Q1&Q2&Q3). split; [by apply HS|]. unfold satv. rewrite HL. split.
      + intros y C Hr. rewrite HL. by apply Q2.
      + intros u. rewrite HL. apply Q3.
    - intros Hg _. by rewrite HL. }
  rewrite (log_faithful clk call iter _ c1 n []).
  destruct (log_spec clk call iter Hit Hc (S (S (2 * eSize e))) c1 m z n [] I1 Hcur) as (c2&m2&z2&n2&log2&E2&I2&X2&Hn2&_&Hd2).
  { intros Ha. rewrite HL. auto. }
  { assert (sum_list_with (fun x => mu iter (lkc call c1 x)) (seq 0 (eSize e)) <= sum_list_with (fun _ => 2%nat) (seq 0 (eSize e)))%nat.
    { apply sum_mono. intros x. unfold mu. destruct (sIter _ =? iter); [lia|]. destruct (sV _ =? INFINITECOST); lia. }
    assert (forall l : list nat, sum_list_with (fun _ => 2%nat) l = (2 * length l)%nat) as Hs.
    { induction l as [|y l IHl]; cbn; [done|]. rewrite IHl. lia. }
    rewrite Hs, seq_length in *. lia. }
  rewrite E2. cbn [obind fst snd].
  assert (current call c2 goal) as Hcur2 by by apply X2.
  rewrite (dlift_ok _ _ _ (rdst_current e fwd call c2 goal Hcur2)). cbn [obind].
  pose proof (xrel_trans _ _ _ _ X1 X2) as X. clear X1 X2.
  pose proof (vo_g _ _ _ (s_vok _ _ _ _ _ I2) goal) as Hg.
  pose proof (s_dat _ _ _ _ _ I2) as D2. pose proof (da_rep _ _ _ _ _ _ _ _ _ D2) as DR. pose proof (da_ord _ _ _ _ _ _ _ _ _ D2) as DO.
  destruct (decide (m2 = ∅)) as [->|Hne].
  - pose proof (proj1 (rep_empty_cur _ _ DR) eq_refl) as Hz0. pose proof (exit_empty _ _ _ _ I2) as A.
    unfold getminkeyheap, emptyheap. rewrite Hz0. cbn [Nat.eqb dlift obind negb andb].
    eexists _, c2, ∅, z2, n2. split; [reflexivity|]. split; [done|]. split; [done|]. split; [done|]. split; [done|].
    destruct (sG (lkc call c2 goal) =? INFINITECOST) eqn:Ei; cbn [andb].
    + right. left. split_and!; [done|lia|]. eapply gdone_none; [done|by left|lia].
    + left. split_and!; [done|lia|]. eapply gdone_sat; [done|done|lia].
  - destruct (getmin_spec ckeyops ckeylaws _ m2 DR DO Hne) as (s&k&_&Emk&Hk&Hmin).
    rewrite Emk. cbn [dlift obind].
    assert (emptyheap (cOpen c2) = false) as Eem.
    { unfold emptyheap. pose proof (proj2 (rep_empty_cur _ _ DR)) as Hx.
      destruct (cur (cOpen c2) =? 0)%nat eqn:E0; [|done]. exfalso. apply Hne, Hx. lia. }
    rewrite Eem. cbn [negb andb]. rewrite andb_false_r, andb_true_r.
    eexists _, c2, m2, z2, n2. split; [reflexivity|]. split; [done|]. split; [done|]. split; [done|]. split; [done|].
    destruct (goal_open eps (lkc call c2 goal) k) eqn:Ego.
    + right. right. split; [done|]. destruct Hd2 as [[Hv A]|[Hn|?]]; [exfalso| |by left].
      * unfold goal_open in Ego. rewrite (goal_key call iter c2 m2 z2 I2 Hv) in Ego. pose proof (A s k Hk) as Hs.
        unfold key_gt in Ego. cbn in Ego. lia.
      * right. split; [apply Hn|]. eapply gdone_none; [done|by right|]. apply Hn.
    + pose proof (exit_min _ _ _ _ _ _ I2 Hmin Ego) as A. destruct (sG (lkc call c2 goal) =? INFINITECOST) eqn:Ei.
      * right. left. split_and!; [done|lia|]. eapply gdone_none; [done|by left|lia].
      * left. split_and!; [done|lia|]. eapply gdone_sat; [done|done|lia].
Qed.
End eps.

(** * BuildNewOPENList and Reevaluatefvals *)
Lemma build_spec eps call iter z : forall c m, dat false call iter None c m z -> (forall x, sIter (lkc call c x) <> iter) ->
  exists c' m', ad_build_loop (length z) eps c = Ok c' /\ dat true call iter None c' m' [] /\ cSt c' = cSt c /\
    (kin eps call c m -> kin eps call c' m').
Proof.
  induction z as [|[ad s] z IH]; intros c m D Hcl; cbn [ad_build_loop length].
  - rewrite (getfirst_spec _ _ (da_lrep _ _ _ _ _ _ _ _ _ D)). cbn. exists c, m. split_and!; try done. destruct D. split; try done.
    intros _ x Hx. cbn in Hx. by apply elem_of_nil in Hx.
  - rewrite (getfirst_spec _ _ (da_lrep _ _ _ _ _ _ _ _ _ D)). cbn [fmap list_fmap head dlift obind snd].
    assert (inz ((ad, s) :: z) s) as Hin by (rewrite fmap_cons; by left).
    pose proof (da_cur _ _ _ _ _ _ _ _ _ D s (or_intror Hin)) as Hcur.
    assert (m !! s = None) as Hm. { destruct (m !! s) eqn:Em; [|done]. exfalso. by apply (da_disj _ _ _ _ _ _ _ _ _ D s); [eauto|]. }
    rewrite (dlift_ok _ _ _ (rdst_current e fwd call c s Hcur)). cbn [obind].
    rewrite (inheap_spec _ m s (da_rep _ _ _ _ _ _ _ _ _ D)). rewrite bool_decide_eq_false_2 by (rewrite Hm; by intros [? [=]]).
    destruct (insertheap_spec ckeyops ckeylaws (cOpen c) m s (ad_key eps (lkc call c s))) as (h'&Eh&Rh&Oh);
      [apply D|apply D|done| |].
    { pose proof (ge_size _ _ _ _ Hge). destruct (dat_room _ _ _ _ _ _ _ _ _ D). unfold HEAPSIZE. lia. }
    rewrite Eh. cbn [dlift obind].
    destruct (list_remove_spec (cInc c) [] ad s z (da_lrep _ _ _ _ _ _ _ _ _ D)) as (l'&El&Ll).
    rewrite El. cbn [dlift obind].
    assert (~ inz z s) as Hnz.
    { pose proof (da_lrep _ _ _ _ _ _ _ _ _ D) as (_&_&_&_&_&Hnd&_). rewrite fmap_cons in Hnd. by apply NoDup_cons in Hnd as [? _]. }
    set (c1 := mkCore (cSt c) h' l'). assert (forall u, lkc call c1 u = lkc call c u) as HL by done.
    destruct (IH c1 (<[s := ad_key eps (lkc call c s)]> m)) as (c'&m'&E'&I'&Es'&Hk').
    { destruct D. split; try done.
      - intros u _. rewrite HL, <- da_mem by done. rewrite fmap_cons, elem_of_cons. cbn [snd].
        destruct (decide (u = s)) as [->|?]; [rewrite lookup_insert; naive_solver|rewrite lookup_insert_ne by done; naive_solver].
      - intros u. destruct (decide (u = s)) as [->|?]; [done|rewrite lookup_insert_ne by done]. intros Hu Hz. apply (da_disj u Hu).
        rewrite fmap_cons. by right.
      - intros Hit u Hu. exfalso. by apply (Hcl u).
      - intros u Hu. apply da_cur. rewrite fmap_cons, elem_of_cons. cbn [snd]. destruct (decide (u = s)) as [->|?]; [auto|].
        rewrite lookup_insert_ne in Hu by done. naive_solver. }
    { done. }
    exists c', m'. rewrite E'. split_and!; try done.
    intros K. apply Hk'. intros u k. rewrite HL.
    destruct (decide (u = s)) as [->|?]; [rewrite lookup_insert; by intros [= <-]|rewrite lookup_insert_ne by done; apply K].
Qed.

Lemma fvals_spec zb eps call iter c m z : dat zb call iter None c m z ->
  exists c' m', ad_fvals eps c = Ok c' /\ dat zb call iter None c' m' z /\ kin eps call c' m' /\ cSt c' = cSt c.
Proof.
  intros D. unfold ad_fvals.
  set (f := fun s (k : ckey) => match cSt c !! s with Some a => ad_key eps a | None => k end).
  destruct (rekey_spec f (cOpen c) m (da_rep _ _ _ _ _ _ _ _ _ D)) as (h1&E1&R1). rewrite E1. cbn [dlift obind].
  destruct (makeheap_spec ckeyops ckeylaws h1 _ R1) as (h2&E2&R2&O2). rewrite E2. cbn [dlift obind].
  set (m' := map_imap (λ s k, Some (f s k)) m) in *.
  assert (forall s, m' !! s = f s <$> m !! s) as Hm'.
  { intros s. unfold m'. rewrite map_lookup_imap. by destruct (m !! s). }
  assert (forall s, is_Some (m' !! s) <-> is_Some (m !! s)) as Hd by (intros s; by rewrite Hm', fmap_is_Some).
  set (c1 := mkCore (cSt c) h2 (cInc c)). assert (forall u, lkc call c1 u = lkc call c u) as HL by done.
  exists c1, m'. split_and!; try done.
  - destruct D. split; try done.
    + intros s. rewrite Hd. apply da_mem.
    + intros s. rewrite Hd. apply da_disj.
    + intros Hit s Hs. rewrite Hm'. rewrite da_cl; try done.
    + intros s. rewrite Hd. apply da_cur.
  - intros s k. rewrite Hm', HL. destruct (m !! s) as [k'|] eqn:Em; [|done]. intros [= <-].
    destruct (da_cur _ _ _ _ _ _ _ _ _ D s (or_introl (mk_is_Some _ _ Em))) as (a&Ea&Ec). unfold f. rewrite Ea.
    by rewrite (lk_current e fwd call c s a Ea Ec).
Qed.
End search.
