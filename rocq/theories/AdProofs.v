From Coq Require Import ZifyBool ZifyNat QArith Qround Lqa.
From Verif Require Import Base KeyModel HeapModel HeapProofs ListModel ListProofs ListSpec AngleModel AngleProofs AraModel AraSpec AraProofs AdModel AdAbs.
Local Open Scope Z_scope.

Lemma dlift_ok {E A} x (r : outcome E A) a : r = Ok a -> dlift x r = Ok a.
Proof. by intros ->. Qed.

Section search.
Context (G : nat -> list (nat * Z)) (e : aenv) (fwd : bool) (E : Q).
Context (Hge : good_env fwd E G e).
Notation inz z s := (s ∈ z.*2).
Notation lkc := (lk e fwd).
Notation H s := (heur fwd e s).
Notation bp a := (get_bp fwd a).

Lemma lk_st call c c' s : cSt c' = cSt c -> lkc call c' s = lkc call c s.
Proof. intros Hs. unfold lk. by rewrite Hs. Qed.
Lemma current_st call c c' s : cSt c' = cSt c -> current call c s -> current call c' s.
Proof. intros Hs. unfold current. by rewrite Hs. Qed.
Lemma lk_ne_current call c s : sV (lkc call c s) <> sG (lkc call c s) -> current call c s.
Proof.
  unfold lk, current. destruct (cSt c !! s) as [a|]; [|done]. destruct (sCall a =? call) eqn:Ec; [|done]. intros _. exists a. split; [done|lia].
Qed.

(** * OPEN and INCONS hold exactly the inconsistent states (except perhaps [ex]). *)
Record dat (zb : bool) (call iter : Z) (ex : option nat) (c : core) (m : gmap nat ckey) (z : list (nat * nat)) : Prop := {
  da_rep : rep (cOpen c) m;
  da_ord : ord ckeyops 1 (cOpen c);
  da_lrep : lrep (cInc c) z;
  da_dom : forall s a, cSt c !! s = Some a -> (s < eSize e)%nat /\ 0 <= sCall a <= call;
  da_mem : forall s, ex <> Some s -> is_Some (m !! s) \/ inz z s <-> sV (lkc call c s) <> sG (lkc call c s);
  da_disj : forall s, is_Some (m !! s) -> ~ inz z s;
  da_cl : 0 < iter -> forall s, sIter (lkc call c s) = iter -> m !! s = None;
  da_z : zb = true -> forall s, inz z s -> sIter (lkc call c s) = iter;
  da_it : forall s, 0 <= sIter (lkc call c s) <= iter;
  da_cur : forall s, is_Some (m !! s) \/ inz z s -> current call c s
}.
Definition kin (eps : Q) (call : Z) (c : core) (m : gmap nat ckey) : Prop :=
  forall s k, m !! s = Some k -> k = ad_key eps (lkc call c s).

Lemma dat_room zb call iter ex c m z : dat zb call iter ex c m z -> (size m + length z <= eSize e)%nat /\
  forall t, (t < eSize e)%nat -> m !! t = None -> ~ inz z t -> (size m + length z < eSize e)%nat.
Proof.
  intros D.
  assert ((dom m : gset nat) ∪ list_to_set (z.*2) ⊆ set_seq 0 (eSize e)) as Hs.
  { intros s Hs. apply elem_of_set_seq. split; [lia|]. cbn. rewrite elem_of_union, elem_of_dom, elem_of_list_to_set in Hs.
    destruct (da_cur _ _ _ _ _ _ _ D s Hs) as (a&Ea&_). by apply (da_dom _ _ _ _ _ _ _ D s a). }
  assert (size ((dom m : gset nat) ∪ list_to_set (z.*2)) = (size m + length z)%nat) as Esz.
  { rewrite size_union.
    + rewrite size_dom, size_list_to_set, fmap_length; [done|]. apply (da_lrep _ _ _ _ _ _ _ D).
    + intros s. rewrite elem_of_dom, elem_of_list_to_set. apply (da_disj _ _ _ _ _ _ _ D). }
  rewrite <- Esz. split.
  - pose proof (subseteq_size _ _ Hs) as Hle. by rewrite size_set_seq in Hle.
  - intros t Ht Hm Hz. rewrite <- (size_set_seq (C:=gset nat) 0 (eSize e)) . apply subset_size. split; [done|].
    intros Hs'. assert (t ∈ (dom m : gset nat) ∪ list_to_set (z.*2)) as Hin.
    { apply Hs', elem_of_set_seq. lia. }
    rewrite elem_of_union, elem_of_dom, elem_of_list_to_set, Hm in Hin. destruct Hin as [[? [=]]|?]; done.
Qed.

Lemma dat_set zb call iter c m z t a : dat zb call iter None c m z -> current call c t -> sCall a = call -> sIter a = sIter (lkc call c t) ->
  dat zb call iter (Some t) (set_st c t a) m z.
Proof.
  intros D Ht Ha Hi. pose proof (fun s => lk_set e fwd call c t a s Ha) as HL.
  assert (forall s, sIter (lkc call (set_st c t a) s) = sIter (lkc call c s)) as HI.
  { intros s. rewrite HL. by destruct (decide (s = t)) as [->|?]. }
  destruct D. split; try done.
  - intros s b Hb. cbn in Hb. destruct (decide (s = t)) as [->|?].
    + rewrite lookup_insert in Hb. injection Hb as <-. destruct Ht as (b&Eb&Ebc). destruct (da_dom0 t b Eb). split; [done|lia].
    + rewrite lookup_insert_ne in Hb by done. eauto.
  - intros s Hs. rewrite HL. destruct (decide (s = t)) as [->|?]; [congruence|]. by apply da_mem0.
  - intros Hit s. rewrite HI. auto.
  - intros Hz s. rewrite HI. auto.
  - intros s. rewrite HI. auto.
  - intros s Hs. apply da_cur0 in Hs. by apply (set_current call c t a s (cOpen c) (cInc c)).
Qed.
(** The same for the state just taken out of OPEN, whose iteration may change. *)
Lemma dat_take zb call iter c m z t a h' : dat zb call iter None c m z -> is_Some (m !! t) -> sCall a = call -> 0 <= sIter a <= iter ->
  rep h' (delete t m) -> ord ckeyops 1 h' ->
  dat zb call iter (Some t) (set_st (mkCore (cSt c) h' (cInc c)) t a) (delete t m) z.
Proof.
  intros D Hm Ha Hi Rh Oh. pose proof (da_cur _ _ _ _ _ _ _ D t (or_introl Hm)) as Ht. pose proof (da_disj _ _ _ _ _ _ _ D t Hm) as Hz.
  assert (forall s, lkc call (set_st (mkCore (cSt c) h' (cInc c)) t a) s = if decide (s = t) then a else lkc call c s) as HL.
  { intros s. rewrite (lk_set e fwd call _ t a s Ha). destruct (decide (s = t)); [done|by apply lk_st]. }
  destruct D. split; try done.
  - intros s b Hb. cbn in Hb. destruct (decide (s = t)) as [->|?].
    + rewrite lookup_insert in Hb. injection Hb as <-. destruct Ht as (b&Eb&Ebc). destruct (da_dom0 t b Eb). split; [done|lia].
    + rewrite lookup_insert_ne in Hb by done. eauto.
  - intros s Hs. rewrite HL. destruct (decide (s = t)) as [->|?]; [congruence|]. rewrite lookup_delete_ne by done. by apply da_mem0.
  - intros s. destruct (decide (s = t)) as [->|?]; [by rewrite lookup_delete; intros [? [=]]|rewrite lookup_delete_ne by done; auto].
  - intros Hit s. rewrite HL. destruct (decide (s = t)) as [->|?]; [intros _; by rewrite lookup_delete|].
    rewrite lookup_delete_ne by done. auto.
  - intros Hzb s Hs. rewrite HL. destruct (decide (s = t)) as [->|?]; [done|]. by apply da_z0.
  - intros s. rewrite HL. by destruct (decide (s = t)) as [->|?].
  - intros s Hs. apply (set_current call c t a s h' (cInc c)); [done|]. apply da_cur0.
    destruct (decide (s = t)) as [->|?]; [auto|]. by rewrite lookup_delete_ne in Hs.
Qed.

Lemma usm_spec zb eps call iter c m z s : dat zb call iter (Some s) c m z -> 0 < iter -> current call c s ->
  exists c' m' z', UpdateSetMembership eps iter c s = Ok c' /\ cSt c' = cSt c /\ dat zb call iter None c' m' z' /\
    (forall x k, m' !! x = Some k -> x <> s /\ m !! x = Some k \/ x = s /\ k = ad_key eps (lkc call c s)).
Proof.
  intros D Hit Hs. destruct (dat_room _ _ _ _ _ _ _ D) as [Hsz Hroom]. pose proof (ge_size _ _ _ _ Hge) as HS.
  assert (s < eSize e)%nat as Hse. { destruct Hs as (a&Ea&_). by apply (da_dom _ _ _ _ _ _ _ D s a). }
  unfold UpdateSetMembership. rewrite (dlift_ok _ _ _ (rdst_current e fwd call c s Hs)). cbn [obind].
  assert (forall h' l' m' z', rep h' m' -> ord ckeyops 1 h' -> lrep l' z' ->
    (forall x, x <> s -> m' !! x = m !! x) -> (forall x, x <> s -> inz z' x <-> inz z x) ->
    (is_Some (m' !! s) \/ inz z' s <-> sV (lkc call c s) <> sG (lkc call c s)) -> (is_Some (m' !! s) -> ~ inz z' s) ->
    (sIter (lkc call c s) = iter -> m' !! s = None) -> (zb = true -> inz z' s -> sIter (lkc call c s) = iter) ->
    dat zb call iter None (mkCore (cSt c) h' l') m' z') as Hmk.
  { intros h' l' m' z' R O L Hm' Hz' H1 H2 H3 H4.
    pose proof (fun x => lk_st call c (mkCore (cSt c) h' l') x eq_refl) as HL. destruct D. split; try done.
    - intros x _. rewrite HL. destruct (decide (x = s)) as [->|Hx]; [done|]. rewrite Hm', Hz' by done. apply da_mem0. congruence.
    - intros x. destruct (decide (x = s)) as [->|Hx]; [done|]. rewrite Hm', Hz' by done. auto.
    - intros _ x. rewrite HL. destruct (decide (x = s)) as [->|Hx]; [done|]. rewrite Hm' by done. auto.
    - intros Hzb x. rewrite HL. destruct (decide (x = s)) as [->|Hx]; [auto|]. rewrite Hz' by done. auto.
    - intros x Hx. destruct (decide (x = s)) as [->|Hxs]; [by apply (current_st call c)|].
      rewrite Hm', Hz' in Hx by done. apply (current_st call c); [done|]. auto. }
  pose proof (da_rep _ _ _ _ _ _ _ D) as DR. pose proof (da_ord _ _ _ _ _ _ _ D) as DO. pose proof (da_lrep _ _ _ _ _ _ _ D) as DL.
  pose proof (da_disj _ _ _ _ _ _ _ D s) as DD. pose proof (fun A => da_cl _ _ _ _ _ _ _ D A s) as DC.
  pose proof (fun A => da_z _ _ _ _ _ _ _ D A s) as DZ.
  rewrite (inheap_spec _ m s DR).
  assert (list_in (cInc c) s = bool_decide (inz z s)) as ->.
  { pose proof (list_in_spec _ z s DL) as Hin. case_bool_decide; [by apply Hin|]. destruct (list_in (cInc c) s); [|done]. tauto. }
  destruct (sV (lkc call c s) =? sG (lkc call c s)) eqn:Evg; cbn [negb].
  - case_bool_decide as Hm.
    + destruct Hm as [k Hk]. destruct (deleteheap_spec ckeyops ckeylaws (cOpen c) m s k DR DO Hk) as (h'&Eh&Rh&Oh).
      rewrite Eh. cbn [dlift obind]. eexists _, (delete s m), z. split_and!; [reflexivity|done| |].
      * apply Hmk; try done.
        -- intros x Hx. by rewrite lookup_delete_ne.
        -- rewrite lookup_delete. split; [|lia]. intros [[? [=]]|Hz]. exfalso. apply DD; eauto.
        -- rewrite lookup_delete. by intros [? [=]].
        -- intros _. by rewrite lookup_delete.
      * intros x k' Hk'. left. destruct (decide (x = s)) as [->|Hx]; [by rewrite lookup_delete in Hk'|].
        rewrite lookup_delete_ne in Hk' by done. done.
    + assert (m !! s = None) as Hms by (destruct (m !! s); [exfalso; apply Hm; eauto|done]).
      case_bool_decide as Hz.
      * destruct (list_remove_in (cInc c) z s DL Hz) as (l'&z'&El&Ll&Ez). rewrite El. cbn [dlift obind].
        assert (forall x, inz z' x <-> x <> s /\ inz z x) as Hz'.
        { intros x. rewrite Ez. unfold lremove. rewrite elem_of_list_filter. done. }
        eexists _, m, z'. split_and!; [reflexivity|done| |].
        -- apply Hmk; try done.
           ++ intros x Hx. rewrite Hz'. tauto.
           ++ rewrite Hz', Hms. split; [intros [[? [=]]|?]; tauto|lia].
           ++ rewrite Hz'. tauto.
        -- intros x k' Hk'. left. split; [congruence|done].
      * eexists _, m, z. split_and!; [reflexivity|done| |].
        -- destruct c as [cs ch cl]. apply Hmk; try done.
           ++ rewrite Hms. split; [intros [[? [=]]|?]; tauto|lia].
        -- intros x k' Hk'. left. split; [congruence|done].
  - destruct (sIter (lkc call c s) =? iter) eqn:Eit; cbn [negb].
    + assert (m !! s = None) as Hms by (apply DC; lia).
      case_bool_decide as Hz.
      * eexists _, m, z. split_and!; [reflexivity|done| |].
        -- destruct c as [cs ch cl]. apply Hmk; try done. split; [lia|auto].
        -- intros x k' Hk'. left. split; [congruence|done].
      * destruct (list_insert_spec (cInc c) z s DL Hz) as (l'&ad&El&Hl').
        { unfold LISTSIZE. pose proof (Hroom s Hse Hms Hz). lia. }
        rewrite El. cbn [dlift obind]. eexists _, m, _. split_and!; [reflexivity|done| |].
        -- apply (Hmk (cOpen c) l' m _ DR DO Hl'); try done.
           ++ intros x Hx. rewrite fmap_cons, elem_of_cons. cbn. tauto.
           ++ rewrite fmap_cons, elem_of_cons. cbn. split; [lia|auto].
           ++ rewrite Hms. by intros [? [=]].
           ++ intros. lia.
        -- intros x k' Hk'. left. split; [congruence|done].
    + case_bool_decide as Hm.
      * destruct Hm as [k Hk]. destruct (updateheap_spec ckeyops ckeylaws (cOpen c) m s k (ad_key eps (lkc call c s)) DR DO Hk) as (h'&Eh&Rh&Oh).
        rewrite Eh. cbn [dlift obind]. eexists _, (<[s := ad_key eps (lkc call c s)]> m), z. split_and!; [reflexivity|done| |].
        -- apply Hmk; try done.
           ++ intros x Hx. by rewrite lookup_insert_ne.
           ++ rewrite lookup_insert. split; [lia|eauto].
           ++ intros _. apply DD. eauto.
           ++ lia.
        -- intros x k'. destruct (decide (x = s)) as [->|Hx]; [rewrite lookup_insert; intros [= <-]; auto|]. rewrite lookup_insert_ne by done. auto.
      * assert (m !! s = None) as Hms by (destruct (m !! s); [exfalso; apply Hm; eauto|done]).
        assert (exists l' z', (if bool_decide (inz z s) then dlift DList (list_remove (cInc c) s) else Ok (cInc c)) = Ok l' /\ lrep l' z' /\
          (forall x, inz z' x <-> x <> s /\ inz z x)) as (l'&z'&El&Ll&Hz').
        { case_bool_decide as Hz.
          - destruct (list_remove_in (cInc c) z s DL Hz) as (l'&z'&El&Ll&Ez). rewrite El. exists l', z'. split_and!; try done.
            intros x. rewrite Ez. unfold lremove. rewrite elem_of_list_filter. done.
          - exists (cInc c), z. split_and!; try done. intros x. split; [|tauto]. intros Hx. split; [congruence|done]. }
        rewrite El. cbn [obind].
        destruct (insertheap_spec ckeyops ckeylaws (cOpen c) m s (ad_key eps (lkc call c s)) DR DO Hms) as (h'&Eh&Rh&Oh).
        { unfold HEAPSIZE. lia. }
        rewrite Eh. cbn [dlift obind]. eexists _, (<[s := ad_key eps (lkc call c s)]> m), z'. split_and!; [reflexivity|done| |].
        -- apply Hmk; try done.
           ++ intros x Hx. by rewrite lookup_insert_ne.
           ++ intros x Hx. rewrite Hz'. tauto.
           ++ rewrite lookup_insert. split; [lia|eauto].
           ++ intros _. rewrite Hz'. tauto.
           ++ lia.
           ++ rewrite Hz'. tauto.
        -- intros x k'. destruct (decide (x = s)) as [->|Hx]; [rewrite lookup_insert; intros [= <-]; auto|]. rewrite lookup_insert_ne by done. auto.
Qed.

(** GetState followed by the call-number check: nothing the search sees changes. *)
Lemma get_refresh_d zb call iter c m z t : dat zb call iter None c m z -> 0 <= call -> (t < eSize e)%nat ->
  exists c', (do c <- dlift DBadState (GetState e fwd call true c t); dlift DBadState (refresh e fwd call true c t)) = Ok c' /\
    dat zb call iter None c' m z /\ (hvalid e fwd c -> hvalid e fwd c') /\ current call c' t /\ (forall s, lkc call c' s = lkc call c s) /\
    (forall s, is_Some (cSt c !! s) -> is_Some (cSt c' !! s)) /\ (forall s, current call c s -> current call c' s).
Proof.
  intros D Hc Ht. unfold GetState. destruct (eSize e <=? t)%nat eqn:Et; [lia|].
  destruct (current_dec call c t) as [(a&Ea&Eac)|Hn].
  - exists c. rewrite Ea. cbn [obind dlift]. rewrite refresh_eq, Ea. replace (sCall a =? call) with true by lia. split_and!; try done. by exists a.
  - set (c1 := ReInitializeSearchStateInfo e fwd call true c t). exists c1.
    assert (current call c1 t) as Hcur. { exists (fresh_info e fwd call true t). simpl. by rewrite lookup_insert. }
    assert ((do c <- dlift DBadState (match cSt c !! t with Some _ => Ok c | None => Ok c1 end); dlift DBadState (refresh e fwd call true c t)) = Ok c1) as ->.
    { destruct (cSt c !! t) as [a|] eqn:Ea; cbn [obind dlift].
      - rewrite refresh_eq, Ea. destruct (sCall a =? call) eqn:Ec; [|done]. exfalso. apply Hn. exists a. split; [done|lia].
      - rewrite refresh_eq. unfold c1. simpl. rewrite lookup_insert. simpl. by rewrite Z.eqb_refl. }
    assert (m !! t = None /\ ~ inz z t) as [Hm Hz].
    { pose proof (da_cur _ _ _ _ _ _ _ D t) as DC. split; [destruct (m !! t) eqn:Em; [exfalso; apply Hn, DC; eauto|done]|].
      intros Hz. apply Hn, DC. auto. }
    assert (forall s, current call c s -> current call c1 s) as Hcc.
    { intros s (b&Eb&Ebc). destruct (decide (s = t)) as [->|?]; [done|]. exists b. simpl. by rewrite lookup_insert_ne. }
    pose proof (fun s => reinit_lk e fwd call c t s Hn) as HL. fold c1 in HL.
    split_and!; [done| |by apply reinit_hvalid|done|done| |done].
    + destruct D. split; try (intros; rewrite ?HL in *; eauto; fail).
      * by apply idx_rep.
      * by apply elem_lrep.
      * intros s a Hs. simpl in Hs. destruct (decide (s = t)) as [->|Hst].
        -- rewrite lookup_insert in Hs. injection Hs as <-. simpl. lia.
        -- rewrite lookup_insert_ne in Hs by done. eauto.
    + intros s Hs. simpl. destruct (decide (s = t)) as [->|?]; [rewrite lookup_insert; eauto|by rewrite lookup_insert_ne].
Qed.

(** * Recomputegval *)
Lemma recompute_loop_spec call s ps : forall c, current call c s ->
  (forall p w, (p, w) ∈ ps -> (p < eSize e)%nat /\ 0 < w <= INFINITECOST) -> (forall p, 0 <= sV (lkc call c p) <= INFINITECOST) ->
  sG (lkc call c s) <= INFINITECOST ->
  exists a, recompute_loop e fwd call s ps c = Ok (set_st c s a) /\ sV a = sV (lkc call c s) /\ sIter a = sIter (lkc call c s) /\ sCall a = call /\
    sH a = sH (lkc call c s) /\ (forall p w, (p, w) ∈ ps -> sG a <= sV (lkc call c p) + w) /\ sG a <= sG (lkc call c s) /\
    (sG a = sG (lkc call c s) /\ bp a = bp (lkc call c s) \/
     exists p w, (p, w) ∈ ps /\ bp a = Some p /\ sG a = sV (lkc call c p) + w).
Proof.
  induction ps as [|[p w] ps IH]; intros c Hs Hps HV HG; cbn [recompute_loop].
  - exists (lkc call c s). split_and!; try done; [|apply lk_call|by intros ? ? ?%elem_of_nil|auto].
    destruct Hs as (a&Ea&Eac). rewrite (lk_current e fwd call c s a Ea Eac). unfold set_st. rewrite insert_id by done. by destruct c.
  - destruct (Hps p w) as [Hp Hw]; [by left|]. destruct (eSize e <=? p)%nat eqn:Ep; [lia|].
    assert (forall p w, (p, w) ∈ ps -> (p < eSize e)%nat /\ 0 < w <= INFINITECOST) as Hps' by (intros; apply Hps; by right).
    destruct (cSt c !! p) as [b|] eqn:Eb.
    2:{ destruct (IH c Hs Hps' HV HG) as (a&E1&E2&E3&E4&E5&E6&E7&E8). exists a. split_and!; try done.
        - intros p' w' [[= -> ->]|Hin]%elem_of_cons; [|by apply E6]. unfold lk at 1. rewrite Eb. simpl. lia.
        - destruct E8 as [?|(p'&w'&?&?)]; [auto|]. right. exists p', w'. split; [by right|done]. }
    rewrite (dlift_ok _ _ _ (rdst_current e fwd call c s Hs)). cbn [obind].
    destruct (sCall b =? call) eqn:Ebc; cbn [andb].
    2:{ destruct (IH c Hs Hps' HV HG) as (a&E1&E2&E3&E4&E5&E6&E7&E8). exists a. split_and!; try done.
        - intros p' w' [[= -> ->]|Hin]%elem_of_cons; [|by apply E6]. unfold lk at 1. rewrite Eb, Ebc. simpl. lia.
        - destruct E8 as [?|(p'&w'&?&?)]; [auto|]. right. exists p', w'. split; [by right|done]. }
    assert (lkc call c p = b) as Elb by (apply lk_current; [done|lia]).
    assert (u32 (sV b + w) = sV b + w) as Eu.
    { unfold u32. apply Z.mod_small. pose proof (HV p) as HVp. rewrite Elb in HVp. unfold INFINITECOST in *. lia. }
    rewrite Eu. destruct (sG (lkc call c s) >? sV b + w) eqn:Egt.
    + set (a1 := set_gbp fwd (lkc call c s) (sV b + w) p w).
      assert (sV a1 = sV (lkc call c s) /\ sG a1 = sV b + w /\ sIter a1 = sIter (lkc call c s) /\ sCall a1 = call /\ bp a1 = Some p /\ sH a1 = sH (lkc call c s)) as (V1&G1&I1&C1&B1&H1).
      { unfold a1, set_gbp, get_bp. pose proof (lk_call e fwd call c s). destruct fwd; simpl; split_and!; done. }
      clearbody a1. pose proof (fun x => lk_set e fwd call c s a1 x C1) as HL.
      assert (forall x, sV (lkc call (set_st c s a1) x) = sV (lkc call c x)) as HV1.
      { intros x. rewrite HL. by destruct (decide (x = s)) as [->|?]. }
      destruct (IH (set_st c s a1)) as (a&E1&E2&E3&E4&E5&E6&E7&E8); try done.
      { by apply (set_current call c s a1 s (cOpen c) (cInc c)). }
      { intros x. rewrite HV1. apply HV. }
      { rewrite HL, decide_True by done. lia. }
      rewrite HL, decide_True in * by done. exists a.
      assert (set_st (set_st c s a1) s a = set_st c s a) as Ess. { unfold set_st. simpl. by rewrite insert_insert. }
      rewrite Ess in E1. rewrite E2, E3, E5. split_and!; try done.
      * intros p' w' [[= -> ->]|Hin]%elem_of_cons; [rewrite Elb; lia|]. rewrite <- HV1. by apply E6.
      * lia.
      * right. destruct E8 as [[EG EB]|(p'&w'&?&?&E9)].
        -- exists p, w. split_and!; [by left|congruence|rewrite Elb; lia].
        -- exists p', w'. rewrite HV1 in E9. split_and!; [by right|done|done].
    + destruct (IH c Hs Hps' HV HG) as (a&E1&E2&E3&E4&E5&E6&E7&E8). exists a. split_and!; try done.
      * intros p' w' [[= -> ->]|Hin]%elem_of_cons; [|by apply E6]. rewrite Elb. lia.
      * destruct E8 as [?|(p'&w'&?&?)]; [auto|]. right. exists p', w'. split; [by right|done].
Qed.

Lemma recompute_spec call c s : current call c s ->
  (forall p w, (p, w) ∈ sprev e fwd s -> (p < eSize e)%nat /\ 0 < w <= INFINITECOST) -> (forall p, 0 <= sV (lkc call c p) <= INFINITECOST) ->
  exists a, Recomputegval e fwd call c s = Ok (set_st c s a) /\ sV a = sV (lkc call c s) /\ sIter a = sIter (lkc call c s) /\ sCall a = call /\
    sH a = sH (lkc call c s) /\ (forall p w, (p, w) ∈ sprev e fwd s -> sG a <= sV (lkc call c p) + w) /\ sG a <= INFINITECOST /\
    (sG a = INFINITECOST \/ exists p w, (p, w) ∈ sprev e fwd s /\ bp a = Some p /\ sG a = sV (lkc call c p) + w).
Proof.
  intros Hs Hps HV. unfold Recomputegval. rewrite (dlift_ok _ _ _ (rdst_current e fwd call c s Hs)). cbn [obind].
  set (a0 := mkA _ _ _ _ _ _ _ _). assert (sCall a0 = call) as C0 by apply lk_call.
  pose proof (fun x => lk_set e fwd call c s a0 x C0) as HL.
  assert (forall x, sV (lkc call (set_st c s a0) x) = sV (lkc call c x)) as HV1.
  { intros x. rewrite HL. by destruct (decide (x = s)) as [->|?]. }
  destruct (recompute_loop_spec call s (sprev e fwd s) (set_st c s a0)) as (a&E1&E2&E3&E4&E5&E6&E7&E8); try done.
  { by apply (set_current call c s a0 s (cOpen c) (cInc c)). }
  { intros x. rewrite HV1. apply HV. }
  { rewrite HL, decide_True by done. done. }
  rewrite HL, decide_True in * by done. exists a.
  assert (set_st (set_st c s a0) s a = set_st c s a) as Ess. { unfold set_st. simpl. by rewrite insert_insert. }
  rewrite Ess in E1. split_and!; try done.
  - intros p w Hin. rewrite <- HV1. by apply E6.
  - destruct E8 as [[EG EB]|(p'&w'&?&?&E9)]; [left; done|]. right. exists p', w'. rewrite HV1 in E9. done.
Qed.
End search.
