(** Proofs for CSlidingBucket. *)
From Coq Require Import ZifyBool ZifyNat Sorting.Sorted.
From Verif Require Import Base SlidingModel SlidingSpec.
Local Open Scope Z_scope.
Ltac Zify.zify_post_hook ::= Z.to_euclidean_division_equations.

Lemma aget_ok {A} (l : list A) i x : 0 <= i -> l !! Z.to_nat i = Some x -> aget l i = Ok x.
Proof. intros H E. unfold aget. replace (i <? 0) with false by lia. by rewrite E. Qed.
Lemma aset_ok {A} (l : list A) i x : 0 <= i < Z.of_nat (length l) -> aset l i x = Ok (<[Z.to_nat i := x]> l).
Proof. intros H. unfold aset. replace (i <? 0) with false by lia. destruct (lookup_lt_is_Some_2 l (Z.to_nat i)) as [y ->]; [lia|done]. Qed.

Lemma if_same {A} (c : bool) (x : A) : (if c then x else x) = x.
Proof. by destruct c. Qed.
(** The place of priority [p] on the ring. *)
Definition ix (b : sbk) (p : Z) : Z := (sFb b + (p - sFp b)) mod sN b.
Lemma ix_range b p : 1 <= sN b -> 0 <= ix b p < sN b.
Proof. intros. unfold ix. apply Z.mod_pos_bound. lia. Qed.
Lemma ix_inj b p q : 1 <= sN b -> sFp b <= p < sFp b + sN b -> sFp b <= q < sFp b + sN b -> ix b p = ix b q -> p = q.
Proof.
  intros HN Hp Hq E. unfold ix in E. 
  pose proof (Z.div_mod (sFb b + (p - sFp b)) (sN b) ltac:(lia)) as E1. pose proof (Z.div_mod (sFb b + (q - sFp b)) (sN b) ltac:(lia)) as E2.
  rewrite E in E1. assert (sN b * ((sFb b + (p - sFp b)) / sN b - (sFb b + (q - sFp b)) / sN b) = p - q) as E3 by lia.
  set (t := (sFb b + (p - sFp b)) / sN b - (sFb b + (q - sFp b)) / sN b) in *. assert (t = 0) by nia. lia.
Qed.

(** A bucket with [off] emptied slots followed by [vals]. *)
Definition arr_ok (init size : Z) (off : nat) (vals : list nat) (o : option (list (option nat))) : Prop :=
  match o with
  | None => off = 0%nat /\ vals = []
  | Some a => (exists r, a = replicate off None ++ (Some <$> vals) ++ replicate r None) /\ (0 < length a)%nat /\ (init = 0 -> Z.of_nat (length a) = size)
  end.
Definition bok (b : sbk) (p : Z) (off : nat) (vals : list nat) : Prop :=
  (exists o, sV b !! Z.to_nat (ix b p) = Some o /\ arr_ok (sInit b) (sSize b) off vals o) /\
  sLast b !! Z.to_nat (ix b p) = Some (Z.of_nat off + Z.of_nat (length vals) - 1) /\ Z.of_nat off + Z.of_nat (length vals) <= sSize b.

Definition le1 (e e' : Z * nat) : Prop := e.1 <= e'.1.
Record base (b : sbk) (q : list (Z * nat)) (k : nat) : Prop := {
  b_N : 1 <= sN b; b_B : 1 <= sSize b; b_I : 0 <= sInit b;
  b_V : Z.of_nat (length (sV b)) = sN b; b_L : Z.of_nat (length (sLast b)) = sN b;
  b_fb : 0 <= sFb b < sN b;
  b_m : sFp b <= sMin b <= sMax b; b_M : sMax b < sFp b + sN b;
  b_bi : sBi b = ix b (sMin b);
  b_ok : forall p, sFp b <= p < sFp b + sN b -> bok b p (if p =? sMin b then k else 0%nat) (atprio p q);
  b_q : Forall (fun e => sMin b <= e.1 <= sMax b) q;
  b_s : StronglySorted le1 q;
  b_mx : q = [] /\ sMin b = sMax b \/ exists e, e ∈ q /\ e.1 = sMax b
}.

Lemma atprio_cons p e q : atprio p (e :: q) = if e.1 =? p then e.2 :: atprio p q else atprio p q.
Proof. unfold atprio. destruct (e.1 =? p) eqn:E; [rewrite filter_cons_True by lia|rewrite filter_cons_False by lia]; done. Qed.
Lemma atprio_nil p q : (forall e, e ∈ q -> e.1 <> p) -> atprio p q = [].
Proof. induction q as [|e q IH]; intros H; [done|]. rewrite atprio_cons. destruct (e.1 =? p) eqn:E; [exfalso; eapply (H e); [left|lia]|]. apply IH. intros e' H'. apply H. by right. Qed.
Lemma atprio_in p q s : s ∈ atprio p q -> exists e, e ∈ q /\ e.1 = p /\ e.2 = s.
Proof. unfold atprio. intros (e&->&He)%elem_of_list_fmap. apply elem_of_list_filter in He as [H1 H2]. eauto. Qed.
Lemma in_atprio e q : e ∈ q -> e.2 ∈ atprio e.1 q.
Proof. intros H. unfold atprio. apply elem_of_list_fmap. exists e. split; [done|]. by apply elem_of_list_filter. Qed.

Lemma place_in p s q e : e ∈ place p s q <-> e = (p, s) \/ e ∈ q.
Proof.
  induction q as [|x q IH]; cbn [place]; [rewrite elem_of_list_singleton; set_solver|].
  destruct (p <? x.1); rewrite ?elem_of_cons, ?IH; set_solver.
Qed.
Lemma place_sorted p s q : StronglySorted le1 q -> StronglySorted le1 (place p s q).
Proof.
  induction q as [|x q IH]; intros Hs; cbn [place]; [by repeat constructor|]. inversion Hs as [|? ? H1 H2]; subst.
  destruct (p <? x.1) eqn:E.
  - constructor; [done|]. constructor; [unfold le1; cbn; lia|]. eapply Forall_impl; [done|]. unfold le1. cbn. intros; lia.
  - constructor; [auto|]. apply Forall_forall. intros e He. apply place_in in He as [->|He]; [unfold le1; cbn; lia|]. by eapply Forall_forall in H2.
Qed.
Lemma place_atprio p s q : StronglySorted le1 q -> atprio p (place p s q) = atprio p q ++ [s].
Proof.
  induction q as [|x q IH]; intros Hs; cbn [place]; [rewrite atprio_cons; cbn; by rewrite Z.eqb_refl|]. inversion Hs as [|? ? H1 H2]; subst.
  destruct (p <? x.1) eqn:E.
  - assert (atprio p (x :: q) = []) as ->. { apply atprio_nil. intros e [->|He]%elem_of_cons; [lia|]. eapply Forall_forall in H2; [|done]. unfold le1 in H2. lia. }
    rewrite atprio_cons. cbn [fst snd]. rewrite Z.eqb_refl. cbn [app]. f_equal. apply atprio_nil. intros e [->|He]%elem_of_cons; [lia|]. eapply Forall_forall in H2; [|done]. unfold le1 in H2. lia.
  - rewrite !atprio_cons. destruct (x.1 =? p); by rewrite IH.
Qed.
Lemma place_atprio_ne p s q p' : p' <> p -> atprio p' (place p s q) = atprio p' q.
Proof.
  intros Hne. induction q as [|x q IH]; cbn [place]; [rewrite atprio_cons; cbn; by replace (p =? p') with false by lia|].
  destruct (p <? x.1); [rewrite (atprio_cons _ (p, s)); cbn [fst]; by replace (p =? p') with false by lia|]. rewrite !atprio_cons. by rewrite IH.
Qed.

(** The element at the current index. *)
Lemma arr_lookup init size off vals a j : arr_ok init size off vals (Some a) ->
  a !! j = if decide (j < off)%nat then Some None else if decide (j - off < length vals)%nat then Some <$> (vals !! (j - off)%nat) else if decide (j < length a)%nat then Some None else None.
Proof.
  intros ((r&Ea)&Hl&Hi). rewrite Ea at 1. repeat case_decide.
  - rewrite lookup_app_l by (rewrite replicate_length; lia). by apply lookup_replicate_2.
  - rewrite lookup_app_r by (rewrite replicate_length; lia). rewrite replicate_length, lookup_app_l by (rewrite fmap_length; lia). by rewrite list_lookup_fmap.
  - rewrite lookup_app_r by (rewrite replicate_length; lia). rewrite replicate_length, lookup_app_r by (rewrite fmap_length; lia). rewrite fmap_length.
    apply lookup_replicate_2. rewrite Ea, !app_length, !replicate_length, fmap_length in H1. lia.
  - apply lookup_ge_None_2. rewrite <- Ea. lia.
Qed.

Definition scan (b : sbk) (q : list (Z * nat)) (k : nat) : Prop :=
  base b q k /\ -1 <= sIx b /\ (Z.of_nat k = sIx b + 1 \/ Z.of_nat k = sIx b /\ (k = 0%nat \/ atprio (sMin b) q <> [])).

Lemma nohere_spec b q k : scan b q k ->
  nohere b = Ok (negb (bool_decide (Z.of_nat k = sIx b /\ atprio (sMin b) q <> []))) /\
  (Z.of_nat k = sIx b -> forall s l, atprio (sMin b) q = s :: l -> exists a, aget (sV b) (sBi b) = Ok (Some a) /\ aget a (sIx b) = Ok (Some s)).
Proof.
  intros (B&Hi&Hk). pose proof B as [HN HB HI HV HL Hfb Hm HM Hbi Hok Hq Hs Hmx].
  destruct (Hok (sMin b)) as ((o&Ho&Hao)&Hlast&Hsz); [lia|]. rewrite Z.eqb_refl in *. pose proof (ix_range b (sMin b) HN) as Hr.
  assert (aget (sV b) (sBi b) = Ok o) as Hg by (rewrite Hbi; apply aget_ok; [lia|done]).
  unfold nohere. rewrite Hg. cbn [obind]. split.
  - destruct (sIx b =? -1) eqn:E1.
    + rewrite bool_decide_false; [done|lia].
    + destruct o as [a|].
      * pose proof (arr_lookup _ _ _ _ _ (Z.to_nat (sIx b)) Hao) as Hl. destruct Hao as (_&Hlen&_).
        destruct Hk as [Hk|[Hk Hk2]].
        -- rewrite decide_True in Hl by lia. rewrite (aget_ok _ _ None) by (done || lia). cbn. rewrite bool_decide_false; [done|lia].
        -- rewrite decide_False in Hl by lia. replace (Z.to_nat (sIx b) - k)%nat with 0%nat in Hl by lia. destruct (atprio (sMin b) q) as [|s l] eqn:Eq.
           ++ rewrite decide_False in Hl by (cbn; lia). destruct Hk2 as [->|]; [|done]. rewrite decide_True in Hl by lia. rewrite (aget_ok _ _ None) by (done || lia). cbn. rewrite bool_decide_false; [done|naive_solver].
           ++ rewrite decide_True in Hl by (cbn; lia). cbn in Hl. rewrite (aget_ok _ _ (Some s)) by (done || lia). cbn. by rewrite bool_decide_true.
      * destruct Hao as [-> Hv]. rewrite bool_decide_false; [done|naive_solver].
  - intros Hk' s l Eq. rewrite Eq in *. destruct o as [a|]; [|by destruct Hao]. exists a. split; [done|].
    pose proof (arr_lookup _ _ _ _ _ (Z.to_nat (sIx b)) Hao) as Hl. rewrite decide_False in Hl by lia. replace (Z.to_nat (sIx b) - k)%nat with 0%nat in Hl by lia. rewrite decide_True in Hl by (cbn; lia).
    apply aget_ok; [lia|done].
Qed.

Lemma sorted_head q m : StronglySorted le1 q -> Forall (fun e : Z * nat => m <= e.1) q -> atprio m q <> [] -> exists s q', q = (m, s) :: q' /\ atprio m q = s :: atprio m q'.
Proof.
  intros Hs Hf Hne. destruct q as [|[p s] q]; [done|]. inversion Hs as [|? ? H1 H2]; subst. inversion Hf as [|? ? H3 H4]; subst. cbn in H3.
  destruct (decide (p = m)) as [->|]; [exists s, q; rewrite atprio_cons; cbn; by rewrite Z.eqb_refl|].
  exfalso. apply Hne. apply atprio_nil. intros e [->|He]%elem_of_cons; [done|]. eapply Forall_forall in H2; [|done]. unfold le1 in H2. cbn in H2. lia.
Qed.

Lemma rloop_spec fuel : forall b q k, scan b q k -> 2 * (sMax b - sMin b + 1) + (if bool_decide (Z.of_nat k = sIx b) then 0 else 1) <= Z.of_nat fuel ->
  exists b' k', rloop fuel b = Ok (snd <$> head q, b') /\ base b' q k' /\ sN b' = sN b /\ sSize b' = sSize b /\ sInit b' = sInit b /\ sFb b' = sFb b /\ sFp b' = sFp b /\
    (q = [] /\ sIx b' = -1 /\ sMin b' = sMin b /\ k' = 0%nat \/ (exists s q', q = (sMin b', s) :: q') /\ sIx b' = Z.of_nat k' /\ k' = if sMin b' =? sMin b then k else 0%nat).
Proof.
  induction fuel as [|fuel IH]; intros b q k Sc Hf.
  { destruct Sc as (B&_). destruct B. case_bool_decide; lia. }
  pose proof Sc as (B&Hi&Hk). pose proof B as [HN HB HI HV HL Hfb Hm HM Hbi Hok Hq Hs Hmx]. destruct (nohere_spec _ _ _ Sc) as [Hno Hel].
  cbn [rloop]. rewrite Hno. cbn [obind]. case_bool_decide as Hc; cbn [negb].
  - (* found *)
    destruct Hc as [Hk' Hne]. destruct (sorted_head q (sMin b)) as (s&q'&Eq&Ea); [done| |done|]. { eapply Forall_impl; [done|]. cbn. intros; lia. }
    destruct (Hel Hk' s _ Ea) as (a&->&Ha). cbn [obind]. rewrite Ha. cbn [obind]. exists b, k. subst q. cbn. split_and!; try done. right. rewrite Z.eqb_refl. split_and!; [eauto|done|done].
  - destruct (Hok (sMin b)) as (Hoo&Hlast&Hsz); [lia|]. rewrite Z.eqb_refl in *. pose proof (ix_range b (sMin b) HN) as Hr.
    rewrite (aget_ok (sLast b) (sBi b) (Z.of_nat k + Z.of_nat (length (atprio (sMin b) q)) - 1)) by (rewrite Hbi; (done || lia)). cbn [obind].
    destruct (sIx b <? _) eqn:Elt.
    + (* next slot of the same bucket *)
      assert (Z.of_nat k = sIx b + 1) as Hk'. { destruct Hk as [|[Hk1 Hk2]]; [done|]. assert (atprio (sMin b) q <> []) by (destruct (atprio (sMin b) q); [cbn in Elt; lia|done]). naive_solver. }
      rewrite bool_decide_false in Hf by lia.
      set (b1 := mkS _ _ _ _ _ _ _ _ _ _ _). destruct (IH b1 q k) as (b'&k'&E&Hb&Hrest).
      { split_and!; [by destruct B; split|cbn; lia|right; cbn; split; [lia|]]. destruct (atprio (sMin b) q); [left; cbn in Elt; lia|by right]. }
      { cbn. rewrite bool_decide_true by lia. lia. }
      exists b', k'. split; [done|]. split; [done|]. exact Hrest.
    + (* this bucket is exhausted *)
      assert (atprio (sMin b) q = []) as Hnil. { destruct (atprio (sMin b) q) eqn:E; [done|]. cbn in Elt. destruct Hk as [|[? ?]]; [lia|naive_solver]. }
      rewrite aset_ok by (rewrite Hbi; lia). cbn [obind].
      assert (bok b (sMin b) 0%nat [] -> True) as _ by done.
      set (ls := <[Z.to_nat (sBi b) := -1]> (sLast b)).
      assert (forall b1, sV b1 = sV b -> sLast b1 = ls -> sN b1 = sN b -> sSize b1 = sSize b -> sInit b1 = sInit b -> sFb b1 = sFb b -> sFp b1 = sFp b ->
        forall p, sFp b <= p < sFp b + sN b -> bok b1 p 0%nat (atprio p q)) as Hclean.
      { intros b1 E1 E2 E3 E4 E5 E6 E7 p Hp. unfold bok. assert (ix b1 p = ix b p) as -> by (unfold ix; by rewrite E3, E6, E7). rewrite E1, E2, E4, E5.
        unfold ls. rewrite Hbi. destruct (decide (p = sMin b)) as [->|Hne].
        - rewrite Hnil. rewrite list_lookup_insert by lia. split_and!; [|cbn; f_equal; lia|cbn; lia]. destruct Hoo as (o&Ho&Hao). exists o. split; [done|]. destruct o as [a|]; [|done].
          destruct Hao as ((r&Ha)&Hao2). split; [|done]. rewrite Hnil in Ha. cbn in Ha. exists (k + r)%nat. rewrite Ha. cbn. by rewrite replicate_add.
        - rewrite list_lookup_insert_ne; [destruct (Hok p Hp) as (H1&H2&H3); replace (p =? sMin b) with false in * by lia; done|].
          intros E. apply Hne. symmetry. apply (ix_inj b); [done|lia|lia|]. pose proof (ix_range b p HN). lia. }
      destruct (sMin b =? sMax b) eqn:Emax.
      * assert (q = []) as ->. { destruct Hmx as [[? _]|(e&He&Hem)]; [done|]. exfalso. apply in_atprio in He. replace (e.1) with (sMin b) in He by lia. rewrite Hnil in He. by apply elem_of_nil in He. }
        eexists _, 0%nat. split; [reflexivity|]. split; [|cbn; split_and!; try done; by left].
        split; cbn; try done; try lia; try (by left); try (unfold ls; by rewrite insert_length); [].
        intros p Hp. rewrite if_same. by apply (Hclean (mkS _ _ _ _ _ _ _ _ _ _ _)).
      * replace (sN b =? 0) with false by lia. set (b1 := mkS _ _ _ _ _ _ _ _ _ _ _).
        assert (forall e, e ∈ q -> sMin b + 1 <= e.1) as Hgt.
        { intros e He. assert (e.1 <> sMin b) by (intros E; apply in_atprio in He; rewrite E, Hnil in He; by apply elem_of_nil in He). eapply Forall_forall in Hq; [|done]. cbn in Hq. lia. }
        destruct (IH b1 q 0%nat) as (b'&k'&E&Hb&H1&H2&H3&H4&H5&H6).
        { split_and!; [|cbn; lia|right; cbn; split; [lia|by left]]. split; cbn; try done; try lia; try (unfold ls; by rewrite insert_length).
          - rewrite Hbi. unfold ix. cbn. rewrite Z.rem_mod_nonneg by (pose proof (Z.mod_pos_bound (sFb b + (sMin b - sFp b)) (sN b)); lia).
            rewrite Z.add_mod_idemp_l by lia. f_equal. lia.
          - intros p Hp. rewrite if_same. by apply (Hclean b1).
          - apply Forall_forall. intros e He. pose proof (Hgt e He). eapply Forall_forall in Hq; [|done]. cbn in Hq. lia.
          - destruct Hmx as [[-> ?]|?]; [lia|by right]. }
        { cbn. revert Hf. rewrite (bool_decide_true (Z.of_nat 0 = 0)) by done. case_bool_decide; lia. }
        exists b', k'. split; [done|]. split; [done|]. split_and!; try done. destruct H6 as [(->&_)|(H6&H7&H8)].
        -- destruct Hmx as [[_ ?]|(e&He&_)]; [lia|by apply elem_of_nil in He].
        -- right. split_and!; try done. destruct H6 as (s&q'&Eq). cbn in H8. assert (sMin b + 1 <= sMin b') by (specialize (Hgt (sMin b', s)); cbn in Hgt; apply Hgt; rewrite Eq; left).
           replace (sMin b' =? sMin b) with false by lia. rewrite H8. by rewrite if_same.
Qed.

(** The invariant between calls. *)
Definition srep (b : sbk) (w : win) : Prop :=
  sFp b = wF w /\ 0 <= wk w /\ (0 < wk w -> sMin b = wF w) /\ base b (wq w) (if sMin b =? wF w then Z.to_nat (wk w) else 0%nat) /\
  if wold w then sIx b = -1 /\ wk w = 0 /\ sMin b = wF w /\ atprio (sMin b) (wq w) = []
  else (exists s q', wq w = (sMin b, s) :: q') /\ sIx b = if sMin b =? wF w then wk w else 0.

Lemma srep_empty b w : srep b w -> sempty b = bool_decide (wq w = []).
Proof.
  intros (HF&Hk&Hkm&B&Ho). unfold sempty. destruct (wold w).
  - destruct Ho as (-> & _ & _ & Hn). cbn. destruct (b_mx _ _ _ B) as [[-> ->]|(e&He&Hem)]; [by rewrite bool_decide_true, Z.eqb_refl by done|].
    rewrite bool_decide_false by (intros E; rewrite E in He; by apply elem_of_nil in He).
    apply Z.eqb_neq. intros E. apply in_atprio in He. rewrite Hem, E, Hn in He. by apply elem_of_nil in He.
  - destruct Ho as ((s&q'&->)&->). rewrite bool_decide_false by done. destruct (sMin b =? wF w); lia.
Qed.
Lemma srep_scan b w : srep b w -> scan b (wq w) (if sMin b =? wF w then Z.to_nat (wk w) else 0%nat).
Proof.
  intros (HF&Hk&Hkm&B&Ho). split; [done|]. destruct (wold w).
  - destruct Ho as (-> & -> & -> & Hn). rewrite Z.eqb_refl. lia.
  - destruct Ho as ((s&q'&Eq)&->). destruct (sMin b =? wF w); (split; [lia|]); right; (split; [lia|]); right; rewrite Eq, atprio_cons; cbn; by rewrite Z.eqb_refl.
Qed.

Lemma recompute_fuel b q k : scan b q k -> 2 * (sMax b - sMin b + 1) + (if bool_decide (Z.of_nat k = sIx b) then 0 else 1) <= Z.of_nat (Z.to_nat (sMax b - sMin b + 1) * (Z.to_nat (sSize b) + 2) + 1).
Proof.
  intros (B&_). destruct B. rewrite !Nat2Z.inj_add, Nat2Z.inj_mul, Nat2Z.inj_add, !Z2Nat.id by lia. case_bool_decide; nia.
Qed.

(** Reading the minimum (getminelement, and the first half of popminelement). *)
Lemma sread_spec b w e q : srep b w -> wq w = e :: q ->
  exists b' k, (do no <- nohere b; if (no : bool) then srecompute b
    else do o <- aget (sV b) (sBi b); match o with None => UB | Some a => do e <- aget a (sIx b); Ok (e, b) end) = Ok (Some e.2, b') /\
    base b' (wq w) k /\ sN b' = sN b /\ sSize b' = sSize b /\ sFp b' = wF w /\ sMin b' = e.1 /\ sIx b' = Z.of_nat k /\ k = (if sMin b' =? wF w then Z.to_nat (wk w) else 0%nat) /\ (0 < wk w -> sMin b' = wF w).
Proof.
  intros R Eq. pose proof (srep_scan _ _ R) as Sc. pose proof (srep_empty _ _ R) as He. rewrite Eq in He. rewrite bool_decide_false in He by done.
  destruct (nohere_spec _ _ _ Sc) as [Hno Hel]. rewrite Hno. cbn [obind]. destruct R as (HF&Hk&Hkm&B&Ho). case_bool_decide as Hc; cbn [negb].
  - destruct (wold w); [destruct Ho as (_&_&_&?); naive_solver|]. destruct Ho as ((s&q'&Eq')&Hix).
    destruct Hc as [Hc1 Hc2]. destruct (Hel Hc1 s (atprio (sMin b) q')) as (a&Ha1&Ha2); [rewrite Eq', atprio_cons; cbn; by rewrite Z.eqb_refl|].
    rewrite Ha1. cbn [obind]. rewrite Ha2. cbn [obind]. rewrite Eq' in Eq. injection Eq as <- <-. exists b, (if sMin b =? wF w then Z.to_nat (wk w) else 0%nat). split_and!; done.
  - unfold srecompute. rewrite He. destruct (rloop_spec _ _ _ _ Sc (recompute_fuel _ _ _ Sc)) as (b'&k'&E&B'&H1&H2&H3&H4&H5&H6). rewrite E, Eq. cbn.
    exists b', k'. rewrite <- Eq. destruct H6 as [(E'&_)|((s&q'&Eq')&H7&H8)]; [congruence|]. rewrite Eq in Eq'. injection Eq' as -> ->. cbn [fst snd].
    destruct (wold w).
    + destruct Ho as (_&Hk0&Hm&_). split_and!; try done; [congruence| |lia]. rewrite H8, Hk0, Hm, Z.eqb_refl. by destruct (_ =? _), (_ =? _).
    + destruct Ho as ((s'&q''&Eq'')&Hix). rewrite Eq in Eq''. injection Eq'' as Em _ _. split_and!; try done; [congruence| |by rewrite Em]. by rewrite H8, Em, Z.eqb_refl.
Qed.

Lemma bok_eq b b' p off vals : sV b' = sV b -> sLast b' = sLast b -> sN b' = sN b -> sSize b' = sSize b -> sInit b' = sInit b -> ix b' p = ix b p -> bok b p off vals -> bok b' p off vals.
Proof. intros E1 E2 E3 E4 E5 E6. unfold bok. by rewrite E6, E1, E2, E4, E5. Qed.

Lemma spop_spec n size b w : srep b w -> sN b = n -> sSize b = size ->
  exists r b', spop b = Ok (r, b') /\ (AState r, (wstep n w SPop).2) = wstep n w SPop /\ srep b' (wstep n w SPop).2 /\ sN b' = n /\ sSize b' = size.
Proof.
  intros R <- <-. unfold spop. rewrite (srep_empty _ _ R). cbn [wstep]. destruct (wq w) as [|[p s] q] eqn:Eq.
  { rewrite bool_decide_true by done. exists None, b. done. }
  rewrite bool_decide_false by done. destruct (sread_spec b w (p, s) q R Eq) as (b1&k&E&B&EN&ES&EF&Em&Eix&Ek&Ekm). cbn [fst snd] in *.
  destruct (nohere b) as [no| | |]; cbn [obind] in E |- *; try discriminate. cbn [obind] in E. rewrite E. cbn [obind fst snd]. rewrite Eq in B.
  pose proof B as [HN HB HI HV HL Hfb Hm HM Hbi Hok Hq Hs Hmx]. pose proof (ix_range b1 (sMin b1) HN) as Hr.
  destruct (Hok (sMin b1)) as ((o&Ho&Hao)&Hlast&Hsz); [lia|]. rewrite Z.eqb_refl in *.
  rewrite atprio_cons in Hao, Hlast, Hsz. cbn [fst snd] in Hao, Hlast, Hsz. replace (p =? sMin b1) with true in * by lia. cbn [length] in *.
  rewrite (aget_ok (sV b1) (sBi b1) o) by (rewrite Hbi; done || lia). cbn [obind]. destruct o as [a|]; [|by destruct Hao]. destruct Hao as ((r&Ea)&Hla&Hinit).
  rewrite aset_ok by (rewrite Ea, !app_length, replicate_length; cbn; lia). cbn [obind]. rewrite aset_ok by (rewrite Hbi; lia). cbn [obind].
  set (a' := <[Z.to_nat (sIx b1) := None]> a).
  assert (a' = replicate (S k) None ++ (Some <$> atprio (sMin b1) q) ++ replicate r None) as Ea'.
  { unfold a'. rewrite Ea, Eix, Nat2Z.id. replace k with (length (replicate k (@None nat)) + 0)%nat at 1 by (rewrite replicate_length; lia). rewrite insert_app_r, replicate_S_end, <- app_assoc. done. }
  set (b2 := mkS _ _ _ _ _ _ _ _ _ _ _).
  assert (ix b2 (sMin b1) = ix b1 (sMin b1)) as Eixm. { unfold ix. cbn. rewrite Hbi. unfold ix. rewrite Z.sub_diag, Z.add_0_r. by rewrite Z.mod_mod by lia. }
  assert (forall p', ix b2 p' = ix b1 p') as Eixp.
  { intros p'. unfold ix. cbn. rewrite Hbi. unfold ix. rewrite Z.add_mod_idemp_l by lia. f_equal. lia. }
  apply StronglySorted_inv in Hs as [Hs1 Hs2]. subst p.
  assert (base b2 q (S k)) as B2.
  { split; cbn; try done; try lia.
    - by rewrite insert_length.
    - intros p' Hp'. destruct (p' =? sMin b1) eqn:Ep.
      + assert (p' = sMin b1) as -> by lia. unfold bok. rewrite Eixp. cbn. rewrite Hbi. rewrite list_lookup_insert by lia. split_and!.
        * exists (Some a'). split; [done|]. split; [by exists r|]. split; [unfold a'; by rewrite insert_length|]. intros Hi. unfold a'. rewrite insert_length. auto.
        * rewrite Hlast. f_equal. lia.
        * lia.
      + assert (Z.to_nat (ix b1 p') <> Z.to_nat (ix b1 (sMin b1)) -> forall off vals, bok b1 p' off vals -> bok b2 p' off vals) as Htr.
        { intros Hne off vals. unfold bok. rewrite Eixp. cbn. rewrite Hbi. by rewrite list_lookup_insert_ne by done. }
        pose proof (ix_range b1 p' HN).
        destruct (decide (p' < sFp b1 + sN b1)) as [Hin|Hout].
        * pose proof (Hok p' ltac:(lia)) as Hb. rewrite Ep in Hb. rewrite atprio_cons in Hb. cbn [fst] in Hb. replace (sMin b1 =? p') with false in Hb by lia. apply Htr; [|done].
          intros E'. assert (p' = sMin b1) by (apply (ix_inj b1); lia). lia.
        * (* a priority that has just entered the window: the ring position of p' - N *)
          assert (ix b1 (p' - sN b1) = ix b1 p') as E1. { unfold ix. replace (sFb b1 + (p' - sN b1 - sFp b1)) with (sFb b1 + (p' - sFp b1) + (-1) * sN b1) by lia. by rewrite Z.mod_add by lia. }
          assert (atprio p' q = []) as ->. { apply atprio_nil. intros e He. eapply (Forall_forall) in Hq; [|right; exact He]. cbn in Hq. lia. }
          pose proof (Hok (p' - sN b1) ltac:(lia)) as Hb. replace (p' - sN b1 =? sMin b1) with false in Hb by lia.
          rewrite atprio_nil in Hb by (intros e He; eapply Forall_forall in Hq; [|exact He]; cbn in Hq; lia).
          apply Htr; [|unfold bok in *; by rewrite E1 in Hb].
          intros E'. assert (p' - sN b1 = sMin b1) by (apply (ix_inj b1); lia). lia.
    - by inversion Hq.
    - destruct q as [|e0 q0].
      + left. split; [done|]. destruct Hmx as [[? _]|(e&He&Hem)]; [done|]. apply elem_of_list_singleton in He as ->. cbn in Hem. lia.
      + right. destruct Hmx as [[? _]|(e&He&Hem)]; [done|]. apply elem_of_cons in He as [->|He]; [|by exists e].
        cbn in Hem. exists e0. split; [left|]. inversion Hq as [|? ? _ Hq2]; subst. inversion Hq2 as [|? ? Hq3 _]; subst. cbn in Hq3. lia. }
  assert (scan b2 q (S k)) as Sc2 by (split; [done|]; cbn; lia).
  unfold srecompute. assert (sempty b2 = false) as -> by (unfold sempty; cbn; lia).
  destruct (rloop_spec _ _ _ _ Sc2 (recompute_fuel _ _ _ Sc2)) as (b3&k3&E3&B3&H1&H2&H3&H4&H5&H6). rewrite E3. cbn [obind fst snd].
  exists (Some s), b3. split; [done|]. split; [done|]. split; [|rewrite H1, H2; cbn; by rewrite EN, ES]. cbn in H4, H5.
  unfold srep. cbn [wF wq wk wold]. destruct H6 as [(->&Hix3&Hm3&->)|((s3&q3&->)&Hix3&Hk3)].
  - rewrite Hm3. cbn [sMin b2]. split_and!; try done; try lia. by rewrite if_same.
  - cbn [sMin b2] in Hk3. destruct R as (_&Hk&_). destruct (sMin b3 =? sMin b1) eqn:E33; (split_and!; [done|first [lia|destruct (_ =? wF w); lia]| | |eauto|]).
    + intros _. lia.
    + assert (Z.to_nat (if sMin b1 =? wF w then wk w + 1 else 1) = k3) as ->; [|done]. destruct (sMin b1 =? wF w); lia.
    + destruct (sMin b1 =? wF w); lia.
    + lia.
    + by subst k3.
    + lia.
Qed.

Lemma sgetmin_spec n size b w : srep b w -> sN b = n -> sSize b = size ->
  exists r b', sgetmin b = Ok (r, b') /\ (AState r, (wstep n w SGetMin).2) = wstep n w SGetMin /\ srep b' (wstep n w SGetMin).2 /\ sN b' = n /\ sSize b' = size.
Proof.
  intros R <- <-. unfold sgetmin. rewrite (srep_empty _ _ R). cbn [wstep]. destruct (wq w) as [|[p s] q] eqn:Eq.
  { rewrite bool_decide_true by done. exists None, b. destruct w. cbn in *. by subst. }
  rewrite bool_decide_false by done. destruct (sread_spec b w (p, s) q R Eq) as (b1&k&E&B&EN&ES&EF&Em&Eix&Ek&Ekm). cbn [fst snd] in *. rewrite E.
  exists (Some s), b1. split_and!; try done. rewrite Eq in B. destruct R as (_&Hk&_). unfold srep. cbn [snd wF wq wk wold]. split_and!; try done.
  - by rewrite <- Ek.
  - subst p. eauto.
  - rewrite Eix, Ek. destruct (sMin b1 =? wF w); lia.
Qed.

Lemma sinsert_spec n size b w s p : srep b w -> sN b = n -> sSize b = size -> (0 <= p - wF w < n -> slots w p < size) ->
  if (0 <=? p - wF w) && (p - wF w <? n)
  then exists b', sinsert b s p = Ok b' /\ srep b' (wstep n w (SInsert s p)).2 /\ sN b' = n /\ sSize b' = size
  else sinsert b s p = Exn (SInvalid b).
Proof.
  intros R <- <- Hslots. pose proof R as (HF&Hk&Hkm&B&Ho). pose proof B as [HN HB HI HV HL Hfb Hm HM Hbi Hok Hq Hs Hmx].
  unfold sinsert. rewrite HF. replace (sN b =? 0) with false by lia. cbn [wstep].
  destruct ((0 <=? p - wF w) && (p - wF w <? sN b)) eqn:Ew.
  2: { replace ((p - wF w >=? sN b) || (p - wF w <? 0)) with true by lia. done. }
  replace ((p - wF w >=? sN b) || (p - wF w <? 0)) with false by lia.
  assert (Z.rem (sFb b + (p - wF w)) (sN b) = ix b p) as -> by (unfold ix; rewrite HF; apply Z.rem_mod_nonneg; lia).
  set (km := if sMin b =? wF w then Z.to_nat (wk w) else 0%nat) in *. set (off := if p =? sMin b then km else 0%nat).
  assert (sFp b <= p < sFp b + sN b) as Hp by lia.
  destruct (Hok p Hp) as ((o&Hoo&Hao)&Hlast&Hsz). fold off in Hao, Hlast, Hsz. pose proof (ix_range b p HN) as Hr.
  assert (Z.of_nat off + Z.of_nat (length (atprio p (wq w))) = slots w p) as Hsl.
  { unfold slots, off, km. destruct (p =? sMin b) eqn:E1, (sMin b =? wF w) eqn:E2, (p =? wF w) eqn:E3; lia. }
  specialize (Hslots ltac:(lia)).
  rewrite (aget_ok _ _ _ (proj1 Hr) Hlast). cbn [obind]. rewrite aset_ok by lia. cbn [obind]. cbn [sSize sV sInit sMax sMin sBi sIx sLast sN sFb sFp].
  set (last := Z.of_nat off + Z.of_nat (length (atprio p (wq w))) - 1 + 1). replace (last =? sSize b) with false by lia.
  rewrite (aget_ok _ _ _ (proj1 Hr) Hoo). cbn [obind].
  set (b0 := mkS _ _ _ _ _ _ _ _ _ _ _). set (a0 := match o with None => screate b0 | Some a => a end).
  assert (arr_ok (sInit b) (sSize b) off (atprio p (wq w)) (Some a0)) as Ha0.
  { destruct o as [a|]; [done|]. destruct Hao as [E1 ->]. rewrite E1. unfold a0, screate. cbn. split; [eauto|]. rewrite replicate_length. destruct (sInit b =? 0) eqn:E; lia. }
  set (a1 := sgrow b0 a0 last).
  assert (arr_ok (sInit b) (sSize b) off (atprio p (wq w)) (Some a1) /\ last < Z.of_nat (length a1)) as [Ha1 Hlen1].
  { pose proof Ha0 as ((r&Er)&Hl0&Hi0). assert (last <= Z.of_nat (length a0)) as Hle by (rewrite Er, !app_length, !replicate_length, fmap_length; lia).
    unfold a1, sgrow. cbn. destruct (sInit b =? 0) eqn:E1; [split; [done|]; rewrite Hi0 by lia; lia|].
    destruct (last >=? Z.of_nat (length a0)) eqn:E2; [|split; [done|lia]].
    assert (last = Z.of_nat (length a0)) as El by lia. destruct (Z.min (Z.of_nat (length a0) * 2) (sSize b) =? Z.of_nat (length a0)) eqn:E3; [lia|].
    rewrite take_ge by lia. split; [|rewrite app_length, replicate_length; lia].
    split; [|split; [rewrite app_length; lia|lia]]. exists (r + (Z.to_nat (Z.min (Z.of_nat (length a0) * 2) (sSize b)) - length a0))%nat. rewrite Er at 1. rewrite <- !app_assoc. by rewrite <- replicate_add. }
  rewrite aset_ok by lia. cbn [obind]. rewrite aset_ok by lia. cbn [obind].
  eexists. split; [reflexivity|]. split; [|done].
  set (a2 := <[Z.to_nat last := Some s]> a1). set (ls := <[Z.to_nat (ix b p) := last]> (sLast b)). set (V := <[Z.to_nat (ix b p) := Some a2]> (sV b)).
  assert (arr_ok (sInit b) (sSize b) off (atprio p (wq w) ++ [s]) (Some a2)) as Ha2.
  { destruct Ha1 as ((r&Er)&Hl1&Hi1). unfold a2. split; [|rewrite insert_length; done]. rewrite Er in Hlen1. rewrite !app_length, !replicate_length, fmap_length in Hlen1.
    destruct r as [|r]; [lia|]. exists r. rewrite Er. replace (Z.to_nat last) with (length (replicate off (@None nat)) + (length (Some <$> atprio p (wq w)) + 0))%nat by (rewrite replicate_length, fmap_length; lia).
    rewrite !insert_app_r. cbn. by rewrite fmap_app, <- app_assoc. }
  assert (forall b1, sV b1 = V -> sLast b1 = ls -> sN b1 = sN b -> sSize b1 = sSize b -> sInit b1 = sInit b -> sFb b1 = sFb b -> sFp b1 = sFp b ->
     forall p', sFp b <= p' < sFp b + sN b -> bok b1 p' (if p' =? sMin b then km else 0%nat) (atprio p' (place p s (wq w)))) as Hbok.
  { intros b1 E1 E2 E3 E4 E5 E6 E7 p' Hp'. unfold bok. assert (ix b1 p' = ix b p') as -> by (unfold ix; by rewrite E3, E6, E7). rewrite E1, E2, E4, E5. unfold V, ls.
    destruct (decide (p' = p)) as [->|Hne].
    - fold off. rewrite place_atprio by done. rewrite !list_lookup_insert by lia. rewrite app_length. cbn [length]. split_and!; [by exists (Some a2)|f_equal; lia|lia].
    - rewrite place_atprio_ne by done. assert (Z.to_nat (ix b p') <> Z.to_nat (ix b p)). { intros E. apply Hne, (ix_inj b); [done|done|done|]. pose proof (ix_range b p' HN). lia. }
      rewrite !list_lookup_insert_ne by done. by apply Hok. }
  assert (forall q', Forall (fun e : Z * nat => sMin b <= e.1) q' -> (p < sMin b \/ p = sMin b /\ atprio p q' = []) -> place p s q' = (p, s) :: q') as Hfirst.
  { intros [|e q'] Hq' Hc; [done|]. cbn. inversion Hq' as [|? ? Hq1 _]; subst. replace (p <? e.1) with true; [done|]. symmetry. apply Z.ltb_lt. destruct Hc as [?|[-> Hc]]; [lia|].
    rewrite atprio_cons in Hc. destruct (e.1 =? sMin b) eqn:E; [done|lia]. }
  assert (Forall (fun e : Z * nat => sMin b <= e.1) (wq w)) as Hq'' by (eapply Forall_impl; [done|]; cbn; intros; lia).
  assert (forall mn mx, mn = (if p <? sMin b then p else sMin b) -> mx = (if p >? sMax b then p else sMax b) -> Forall (fun e => mn <= e.1 <= mx) (place p s (wq w))) as HqF.
  { intros mn mx Emn Emx. apply Forall_forall. intros e He. apply place_in in He as [->|He]; cbn; [destruct (p <? sMin b) eqn:?, (p >? sMax b) eqn:?; lia|].
    eapply Forall_forall in Hq; [|done]. cbn in Hq. destruct (p <? sMin b) eqn:?, (p >? sMax b) eqn:?; lia. }
  assert (forall mx, mx = (if p >? sMax b then p else sMax b) -> exists e, e ∈ place p s (wq w) /\ e.1 = mx) as HqM.
  { intros mx ->. destruct (p >? sMax b) eqn:E; [exists (p, s); split; [apply place_in; by left|done]|].
    destruct Hmx as [[Hn0 Hmm]|(e&He&Hem)]; [|exists e; split; [apply place_in; by right|done]].
    exists (p, s). split; [apply place_in; by left|]. cbn. destruct (wold w); [lia|]. destruct Ho as ((?&?&E')&_). congruence. }
  destruct (p <? sMin b) eqn:Elt.
  - (* a new minimum *)
    destruct (wold w); [lia|]. destruct Ho as ((s1&q1&Eq)&Hix). assert (km = 0%nat) as Ekm by (unfold km; destruct (sMin b =? wF w) eqn:?; lia).
    assert (sIx b = 0) as Hix0 by (rewrite Hix; destruct (sMin b =? wF w) eqn:?; lia). rewrite Hix0. replace (0 =? -1) with false by done. rewrite andb_false_r.
    assert (wk w = 0) by lia.
    unfold srep. cbn [snd wF wq wk wold sFp sMin sIx sMax andb]. split_and!; try done; try lia.
    + split; cbn [sN sSize sInit sV sLast sFb sFp sMin sMax sBi]; try done; try lia.
      * unfold V. by rewrite insert_length.
      * unfold ls. by rewrite insert_length.
      * destruct (p >? sMax b); lia.
      * destruct (p >? sMax b); lia.
      * unfold ix. cbn. by rewrite HF.
      * intros p' Hp'. rewrite <- HF in *. replace (if p' =? p then if p =? sFp b then Z.to_nat (wk w) else 0%nat else 0%nat) with (if p' =? sMin b then km else 0%nat); [by apply Hbok|].
        rewrite Ekm, H. by rewrite !if_same.
      * by apply HqF.
      * by apply place_sorted.
      * right. by apply HqM.
    + exists s, (wq w). apply Hfirst; [done|by left; lia].
    + rewrite H. by rewrite if_same.
  - assert ((ix b (sMin b) =? ix b p) = (p =? sMin b)) as Eix.
    { destruct (p =? sMin b) eqn:E; [assert (p = sMin b) as -> by lia; apply Z.eqb_refl|]. apply Z.eqb_neq. intros E'. apply ix_inj in E'; lia. }
    rewrite Hbi at 2. rewrite Eix.
    unfold srep. cbn [snd wF wq wk wold sFp sMin sIx sMax]. split_and!; try done.
    + fold km. split; cbn [sN sSize sInit sV sLast sFb sFp sMin sMax sBi]; try done; try lia.
      * unfold V. by rewrite insert_length.
      * unfold ls. by rewrite insert_length.
      * destruct (p >? sMax b); lia.
      * destruct (p >? sMax b); lia.
      * rewrite Hbi. unfold ix. cbn. by rewrite HF.
      * intros p' Hp'. rewrite <- HF in *. by apply Hbok.
      * by apply HqF.
      * by apply place_sorted.
      * right. by apply HqM.
    + destruct (wold w).
      * destruct Ho as (Hix&Hk0&Hm0&Hat). rewrite Hix. destruct (p =? sMin b) eqn:E.
        -- replace (p =? wF w) with true by lia. cbn. rewrite Hk0, if_same. split; [|done]. exists s, (wq w). assert (p = sMin b) as Ep by lia. rewrite <- Ep. apply Hfirst; [done|]. right. split; [done|]. by rewrite Ep.
        -- replace (p =? wF w) with false by lia. cbn. split_and!; try done. by rewrite place_atprio_ne by lia.
      * destruct Ho as ((s1&q1&Eq)&Hix). cbn [andb]. assert (sIx b =? -1 = false) as -> by (rewrite Hix; destruct (sMin b =? wF w); lia). rewrite andb_false_r. split; [|done].
        rewrite Eq. cbn [place fst]. rewrite Elt. eauto.
Qed.

Lemma new_srep n size init : 1 <= n -> 1 <= size -> srep (new_sbk n size init) w0 /\ sN (new_sbk n size init) = n /\ sSize (new_sbk n size init) = size.
Proof.
  intros Hn Hs. split; [|done]. unfold srep, new_sbk, w0. cbn. split_and!; try done; try lia. split; cbn; rewrite ?replicate_length; try done; try lia; try (left; done); try apply Forall_nil_2; try apply SSorted_nil.
  intros p Hp. rewrite if_same. unfold bok. pose proof (ix_range (mkS n size (Z.max 0 init) (replicate (Z.to_nat n) None) (replicate (Z.to_nat n) (-1)) 0 (-1) 0 0 0 0) p ltac:(cbn; lia)) as Hr. cbn in Hr |- *.
  rewrite !lookup_replicate_2 by lia. split_and!; [by exists None|done|lia].
Qed.
Lemma reset_srep n size b w : srep b w -> sN b = n -> sSize b = size -> srep (sreset b) w0 /\ sN (sreset b) = n /\ sSize (sreset b) = size.
Proof.
  intros (HF&Hk&Hkm&B&_) <- <-. split; [|done]. pose proof B as [HN HB HI HV HL Hfb Hm HM Hbi Hok Hq Hs Hmx]. unfold srep, w0. cbn. split_and!; try done; try lia.
  split; cbn; rewrite ?map_length; try done; try lia; try (left; done); try apply Forall_nil_2; try apply SSorted_nil.
  intros p Hp. rewrite if_same. unfold bok. pose proof (ix_range (sreset b) p HN) as Hr. set (i := ix (sreset b) p) in *. cbn in Hr.
  cbn [sreset sV sLast sSize sInit]. 
  (* every ring position is that of some priority in the window *)
  set (p' := sFp b + (i - sFb b) mod sN b). assert (sFp b <= p' < sFp b + sN b) as Hp' by (unfold p'; pose proof (Z.mod_pos_bound (i - sFb b) (sN b)); lia).
  assert (ix b p' = i) as Ei. { unfold ix, p'. replace (sFb b + (sFp b + (i - sFb b) mod sN b - sFp b)) with (sFb b + (i - sFb b) mod sN b) by lia. rewrite Z.add_mod_idemp_r by lia. rewrite Z.mod_small by lia. lia. }
  destruct (Hok p' Hp') as ((o&Ho&Hao)&Hl&_). rewrite Ei in Ho, Hl. rewrite !list_lookup_fmap, Ho, Hl. cbn. split_and!; [|done|lia].
  destruct o as [a|]; [|by exists None]. destruct Hao as (_&Hl0&Hi0). eexists. split; [done|]. split; [by exists (length a)|]. rewrite replicate_length. done.
Qed.

Lemma sstep_spec n size b w o : srep b w -> sN b = n -> sSize b = size ->
  match o with SInsert s p => 0 <= p - wF w < n -> slots w p < size | _ => True end ->
  exists b', sstep b o = Ok ((wstep n w o).1, b') /\ srep b' (wstep n w o).2 /\ sN b' = n /\ sSize b' = size.
Proof.
  intros R EN ES Hr. destruct o as [s p| | | | |].
  - pose proof (sinsert_spec n size b w s p R EN ES Hr) as H. cbn [wstep] in *. destruct (_ && _).
    + destruct H as (b'&E&H). exists b'. unfold sstep. rewrite E. cbn. done.
    + exists b. unfold sstep. rewrite H. done.
  - destruct (spop_spec n size b w R EN ES) as (r&b'&E&Ew&H). exists b'. unfold sstep. rewrite E. cbn [obind]. rewrite <- Ew. done.
  - destruct (sgetmin_spec n size b w R EN ES) as (r&b'&E&Ew&H). exists b'. unfold sstep. rewrite E. cbn [obind]. rewrite <- Ew. done.
  - exists b. unfold sstep. rewrite (srep_empty _ _ R). cbn. split_and!; try done. by destruct (wq w).
  - exists b. unfold sstep. cbn. split_and!; try done. unfold getminkey. destruct R as (_&_&_&_&Ho). destruct (wold w).
    + destruct Ho as (_&_&->&_). done.
    + destruct Ho as ((s&q&->)&_). done.
  - exists (sreset b). split; [done|]. cbn. by eapply reset_srep.
Qed.
Lemma srun_spec n size os : forall b w, srep b w -> sN b = n -> sSize b = size -> roomy n size w os ->
  exists b', srun b os = Ok ((wrun n w os).1, b') /\ srep b' (wrun n w os).2.
Proof.
  induction os as [|o os IH]; intros b w R EN ES Hr; [by exists b|]. destruct Hr as [Hr1 Hr2].
  destruct (sstep_spec n size b w o R EN ES Hr1) as (b1&E1&R1&EN1&ES1). destruct (IH b1 _ R1 EN1 ES1 Hr2) as (b2&E2&R2).
  exists b2. cbn [srun wrun]. rewrite E1. cbn [obind snd fst]. rewrite E2. done.
Qed.
