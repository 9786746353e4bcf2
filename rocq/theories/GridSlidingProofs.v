From Coq Require Import ZifyBool Sorting.Sorted.
From Verif Require Import Base DistModel HeapModel HeapProofs SlidingModel SlidingSpec SlidingProofs GridModel GridSpec GridProofs GridProofs2 GridSlidingModel.
Ltac Zify.zify_post_hook ::= idtac.
Local Open Scope Z_scope.

(** ** More about the list *)
Lemma sinsert_full b w s p : srep b w -> 0 <= p - wF w < sN b -> sSize b <= slots w p -> exists b', sinsert b s p = Exn (SFull b').
Proof.
  intros R Hp Hfull. pose proof R as (HF&Hk&Hkm&B&Ho). pose proof B as [HN HB HI HV HL Hfb Hm HM Hbi Hok Hq Hs Hmx].
  unfold sinsert. rewrite HF. replace (sN b =? 0) with false by lia. replace ((p - wF w >=? sN b) || (p - wF w <? 0)) with false by lia.
  assert (Z.rem (sFb b + (p - wF w)) (sN b) = ix b p) as -> by (unfold ix; rewrite HF; apply Z.rem_mod_nonneg; lia).
  set (km := if sMin b =? wF w then Z.to_nat (wk w) else 0%nat) in *. set (off := if p =? sMin b then km else 0%nat).
  destruct (Hok p ltac:(lia)) as (_&Hlast&Hsz). fold off in Hlast, Hsz. pose proof (ix_range b p HN) as Hr.
  assert (Z.of_nat off + Z.of_nat (length (atprio p (wq w))) = slots w p) as Hsl.
  { unfold slots, off, km. destruct (p =? sMin b) eqn:E1, (sMin b =? wF w) eqn:E2, (p =? wF w) eqn:E3; lia. }
  rewrite (aget_ok _ _ _ (proj1 Hr) Hlast). cbn [obind]. rewrite aset_ok by lia. cbn [obind]. cbn [sSize sV sInit sMax sMin sBi sIx sLast sN sFb sFp].
  set (last := Z.of_nat off + Z.of_nat (length (atprio p (wq w))) - 1 + 1). replace (last =? sSize b) with true by lia. eauto.
Qed.
Lemma srep_sorted b w : srep b w -> StronglySorted le1 (wq w) /\ (forall k i, (k, i) ∈ wq w -> wF w <= k).
Proof.
  intros (HF&_&_&B&_). split; [apply (SlidingProofs.b_s _ _ _ B)|]. intros k i Hi. pose proof (SlidingProofs.b_q _ _ _ B) as Hq. eapply Forall_forall in Hq; [|exact Hi]. cbn in Hq. pose proof (SlidingProofs.b_m _ _ _ B). lia.
Qed.
Lemma srep_key b w : srep b w -> wF w <= getminkey b /\ forall k i, (k, i) ∈ wq w -> getminkey b <= k.
Proof.
  intros (HF&_&_&B&_). unfold getminkey. split; [pose proof (SlidingProofs.b_m _ _ _ B); lia|]. intros k i Hi. pose proof (SlidingProofs.b_q _ _ _ B) as Hq. eapply Forall_forall in Hq; [|exact Hi]. cbn in Hq. lia.
Qed.
Lemma place_nodup p s q : NoDup q -> (p, s) ∉ q -> NoDup (place p s q).
Proof.
  induction q as [|e q IH]; intros Hq Hn; cbn [place]; [apply NoDup_singleton|]. destruct (p <? e.1); [by constructor|]. apply NoDup_cons in Hq as [H1 H2]. constructor.
  - rewrite place_in. intros [->|?]; [|done]. apply Hn. left.
  - apply IH; [done|]. intros ?. apply Hn. by right.
Qed.
Lemma place_length p s q : length (place p s q) = S (length q).
Proof. induction q as [|e q IH]; [done|]. cbn. destruct (p <? e.1); cbn; [done|by rewrite IH]. Qed.
Lemma atprio_nodup p q : NoDup q -> NoDup (atprio p q).
Proof.
  induction q as [|[k i] q IH]; intros Hq; [constructor|]. apply NoDup_cons in Hq as [H1 H2]. rewrite atprio_cons. cbn [fst snd]. destruct (k =? p) eqn:E; [|auto]. constructor; [|auto]. intros (e&He&E1&E2)%atprio_in. apply H1. destruct e as [k' i']. cbn in *. subst. by replace k with p by lia.
Qed.
Lemma nodup_bound (l : list nat) (N : nat) : NoDup l -> (forall i, i ∈ l -> (i < N)%nat) -> (length l <= N)%nat.
Proof.
  intros Hn Hb. rewrite <- (size_set_seq (C := gset nat) 0 N). rewrite <- (size_list_to_set (C := gset nat) l Hn). apply subseteq_size. intros i Hi. apply elem_of_list_to_set in Hi. apply elem_of_set_seq. specialize (Hb i Hi). lia.
Qed.

Lemma int32_ok z : z <= 2147483647 -> int32 z = Ok z.
Proof. intros Hz. unfold int32. by replace (z <=? 2147483647) with true by lia. Qed.

Section bd.
Context (grid : Z -> Z -> Z) (obs : Z) (tc : term) (s0 : gsearch) (src : nat) (bsz : Z).
Notation W := (gsW s0). Notation H := (gsH s0). Notation iter := (gsIter s0).
Notation cellof := (cellof s0). Notation valid := (valid s0). Notation E := (E grid obs s0).
Notation gpath := (path grid W H (gsDown s0) obs (gsDist s0) (cellof src)).
Notation D := (maxdistance s0).
Context (Hwf : gwf s0).
Context (Hgrid : forall x y, 0 <= grid x y) (Hobs : obs <= 255) (Hdear : forall x y, grid x y < obs -> grid x y <= 253).
Context (Hdist : 0 <= (gsDist s0).1.1 /\ 0 <= (gsDist s0).1.2 /\ 0 <= (gsDist s0).2) (HD : 1 <= D) (Hsmall : 255 * D + INFINITECOST <= 2147483647).
Context (Hvsrc : valid src).

Record bbase (closed : gset nat) (g : gsb) (w : win) : Prop := {
  bb_static : static (gbS g) = static s0;
  bb_rep : srep (gbL g) w /\ sN (gbL g) = 255 * D /\ sSize (gbL g) = bsz;
  bb_F : 0 <= wF w;
  bb_pend : forall k i, (k, i) ∈ wq w -> accof (gbS g) i = iter /\ gof (gbS g) i <= k <= INFINITECOST;
  bb_acc : forall i, accof (gbS g) i = iter -> valid i /\ 0 <= gof (gbS g) i <= INFINITECOST /\ (i ∈ closed \/ (gof (gbS g) i, i) ∈ wq w \/ gof (gbS g) i = INFINITECOST) /\
    (gof (gbS g) i < INFINITECOST -> gpath (cellof i) (gof (gbS g) i));
  bb_closed : forall i, i ∈ closed -> accof (gbS g) i = iter /\ gof (gbS g) i <= wF w;
  bb_src : accof (gbS g) src = iter /\ gof (gbS g) src = 0;
  bb_le : forall i, accof (gbS g) i <= iter;
  bb_nodup : NoDup (wq w);
  bb_cons : exists cons, Z.of_nat (length cons) = wk w /\ NoDup (cons ++ atprio (wF w) (wq w)) /\ forall i, i ∈ cons -> i ∈ closed
}.
Definition bmono (closed : gset nat) (g g' : gsb) : Prop := mono s0 closed (gbS g) (gbS g').
Lemma bmono_refl closed g : bmono closed g g.
Proof. intros j Hj. split; [done|]. split; [reflexivity|done]. Qed.
Lemma bmono_trans closed g1 g2 g3 : bmono closed g1 g2 -> bmono closed g2 g3 -> bmono closed g1 g3.
Proof. intros H1 H2 j Hj. destruct (H1 j Hj) as (Ha&Hb&Hc). destruct (H2 j Ha) as (Ha'&Hb'&Hc'). split; [done|]. split; [by etrans|]. intros Hcl. rewrite Hc', Hc; auto. Qed.

(** The list can only be full when a bucket is smaller than the map. *)
Lemma slots_bound closed g w p i : bbase closed g w -> valid i -> i ∉ closed -> (p, i) ∉ wq w -> slots w p < W * H.
Proof.
  intros B Hvi Hic Hnew. assert (forall j, j ∈ i :: atprio p (wq w) -> (j < Z.to_nat (W * H))%nat) as Hv.
  { intros j Hj. apply elem_of_cons in Hj as [->|Hj]; [unfold GridProofs2.valid in Hvi; lia|]. apply atprio_in in Hj as ([k j']&Hj&_&<-). destruct (bb_pend _ _ _ B k j' Hj) as [Ha _]. destruct (bb_acc _ _ _ B j' Ha) as (Hvj&_). unfold GridProofs2.valid in Hvj. cbn. lia. }
  assert (i ∉ atprio p (wq w)) as Hni. { intros ([k j]&Hj&Ek&Ej)%atprio_in. cbn in *. subst. done. }
  assert (0 <= W * H) as HWH by (destruct Hwf as (_&?&?&_); nia). unfold slots. destruct (p =? wF w) eqn:Ep.
  - assert (p = wF w) as -> by lia. destruct (bb_cons _ _ _ B) as (cons&<-&Hn&Hc). assert (length (i :: cons ++ atprio (wF w) (wq w)) <= Z.to_nat (W * H))%nat as Hle; [|cbn in Hle; rewrite app_length in Hle; lia].
    apply nodup_bound.
    + constructor; [|done]. rewrite elem_of_app. intros [Hi|Hi]; [by apply Hic, Hc|done].
    + intros j Hj. apply elem_of_cons in Hj as [->|Hj]; [apply Hv; left|]. apply elem_of_app in Hj as [Hj|Hj]; [|apply Hv; by right]. destruct (bb_closed _ _ _ B j (Hc j Hj)) as [Ha _]. destruct (bb_acc _ _ _ B j Ha) as (Hvj&_). unfold GridProofs2.valid in Hvj. lia.
  - assert (NoDup (i :: atprio p (wq w))) as Hn by (constructor; [done|apply atprio_nodup, (bb_nodup _ _ _ B)]). pose proof (nodup_bound _ _ Hn Hv) as Hle. cbn in Hle. lia.
Qed.

Lemma brelax1_ok closed u d g w expcost :
  bbase closed g w -> u ∈ closed -> wF w = gof (gbS g) u -> d ∈ gdirs -> getCost grid s0 (cellof u).1 (cellof u).2 = Ok expcost ->
  (brelax1 grid obs closed (cellof u).1 (cellof u).2 expcost d g = Exn GFull /\ bsz < W * H) \/
  exists g' w', brelax1 grid obs closed (cellof u).1 (cellof u).2 expcost d g = Ok g' /\ bbase closed g' w' /\ bmono closed g g' /\ wF w' = wF w /\ (length (wq w') <= S (length (wq w)))%nat /\
    forall j c M, valid j -> cellof j = ((cellof u).1 + d.1.1, (cellof u).2 + d.1.2) ->
      (exists t, t ∈ dcells (cellof u).1 (cellof u).2 d /\ blockcost grid (gsDown s0) t M) -> (forall t k, t ∈ dcells (cellof u).1 (cellof u).2 d -> blockcost grid (gsDown s0) t k -> k <= M) -> M < obs -> c = (M + 1) * dlen (gsDist s0) d ->
      accof (gbS g') j = iter /\ gof (gbS g') j <= gof (gbS g) u + c.
Proof.
  intros B Hu HFu Hd Hexp. set (s := gbS g) in *. pose proof (bb_static _ _ _ B) as Hst. fold s in Hst. pose proof (static_inv _ _ Hst) as (E1&E2&E3&E4&E5&E6&E7&E8&E9&E10).
  destruct (bb_closed _ _ _ B u Hu) as [Hau _]. fold s in Hau. destruct (bb_acc _ _ _ B u Hau) as (Hvu&Hgu&_&Hpu). fold s in Hgu, Hpu. pose proof (inblocks_cellof s0 Hwf u Hvu) as Hbu.
  destruct (cellof u) as [ux uy] eqn:Eu. cbn [fst snd] in *. set (nx := ux + d.1.1). set (ny := uy + d.1.2).
  unfold brelax1. fold s nx ny. destruct (withinMap s nx ny) eqn:Ewm; cbn [negb]; unfold withinMap in Ewm.
  2:{ right. exists g, w. split_and!; [done|done|apply bmono_refl|done|lia|]. intros j c M Hvj Ej. pose proof (inblocks_cellof s0 Hwf j Hvj) as [Hx Hy]. rewrite Ej in Hx, Hy. cbn [fst snd] in Hx, Hy. exfalso. unfold nx, ny in *. lia. }
  assert (inblocks W H (nx, ny)) as Hbn by (split; cbn; lia). destruct (cellof_cellid s0 s (nx, ny) Hst Hbn) as [Ec Hvn]. cbn [fst snd] in Ec, Hvn. set (i := cellid s nx ny) in *.
  assert (forall j, cellof j = (nx, ny) -> j = i) as Hinj. { intros j Ej. rewrite <- (cellid_cellof s0 Hwf s j Hst). rewrite Ej. done. }
  assert (forall t M, blockcost grid (gsDown s0) t M -> M < obs -> 0 <= M <= 253) as Hbc. { intros t M [(dx&dy&_&_&<-) _] HM. split; [apply Hgrid|by apply Hdear]. }
  assert (0 <= dlen (gsDist s0) d <= D) as Hdl. { unfold dlen, maxdistance. destruct (_ || _); [lia|]. destruct (d.2); lia. }
  destruct (decide (i ∈ closed)) as [Hic|Hic].
  { right. exists g, w. split_and!; [done|done|apply bmono_refl|done|lia|]. intros j c M Hvj Ej (t&_&Hb) H2 Ho ->. apply Hinj in Ej as ->. destruct (bb_closed _ _ _ B i Hic) as [Hai Hgi]. split; [done|]. fold s in Hgi |- *. pose proof (Hbc t M Hb Ho). nia. }
  destruct (mapcost_ok grid s ux uy expcost d (static_gwf s0 Hwf s Hst) Hd) as (M&EM&HM1&HM2).
  { by rewrite E3, E4. } { by rewrite E3, E4. } { by rewrite (getCost_static grid s0). } rewrite E6 in HM1, HM2.
  unfold mapcost_of in EM. fold nx ny in EM. destruct (getCost grid s nx ny) as [cn| | |]; try discriminate. cbn [obind glift] in EM |- *.
  assert ((match d.2 with None => Ok (Z.max cn expcost) | Some (x0, y0, (x1, y1)) => do c0 <- glift (getCost grid s (ux + x0) (uy + y0)); do c1 <- glift (getCost grid s (ux + x1) (uy + y1)); Ok (Z.max (Z.max (Z.max cn expcost) c0) c1) end) = (Ok M : gbres Z)) as EM'.
  { destruct (d.2) as [[[x0 y0] [x1 y1]]|]; [|by injection EM as ->]. destruct (getCost grid s (ux + x0) (uy + y0)) as [c0| | |]; try discriminate. cbn [obind glift] in *. destruct (getCost grid s (ux + x1) (uy + y1)) as [c1| | |]; try discriminate. cbn [obind glift] in *. by injection EM as ->. }
  rewrite EM'. cbn [obind]. clear EM EM'.
  destruct (M >=? obs) eqn:Eo.
  { right. exists g, w. split_and!; [done|done|apply bmono_refl|done|lia|]. intros j c M' Hvj Ej H1 H2 Ho ->. exfalso. pose proof (dirmax_unique _ _ _ _ _ _ _ HM1 HM2 H1 H2). lia. }
  assert (0 <= M <= 253) as HM0. { destruct HM1 as (t&_&Hb). apply (Hbc t M Hb). lia. }
  assert ((if (d.1.1 =? 0) || (d.1.2 =? 0) then (gsDist s).1.1 else match d.2 with None => (gsDist s).1.2 | Some _ => (gsDist s).2 end) = dlen (gsDist s0) d) as -> by (unfold dlen; by rewrite E7).
  set (dl := dlen (gsDist s0) d) in *.
  assert (0 <= (M + 1) * dl <= 254 * D) as Hc by nia. rewrite (int32_ok ((M + 1) * dl)) by (unfold INFINITECOST in *; lia). cbn [glift obind].
  assert (cellid s ux uy = u) as ->. { pose proof (cellid_cellof s0 Hwf s u Hst) as He. by rewrite Eu in He. }
  set (c := (M + 1) * dl) in *. rewrite (int32_ok (c + gof s u)) by lia. cbn [glift obind].
  assert (E u i c) as HE. { unfold GridProofs2.E. rewrite Eu, Ec. apply dir_edge; [done|done|done|done|done|lia]. }
  assert (forall s' , (accof s' i = iter /\ gof s' i <= gof s u + c) -> forall j c0 M0, valid j -> cellof j = (nx, ny) ->
      (exists t, t ∈ dcells ux uy d /\ blockcost grid (gsDown s0) t M0) -> (forall t k, t ∈ dcells ux uy d -> blockcost grid (gsDown s0) t k -> k <= M0) -> M0 < obs -> c0 = (M0 + 1) * dl ->
      accof s' j = iter /\ gof s' j <= gof s u + c0) as Htgt.
  { intros s' Hs' j c0 M0 Hvj Ej H1 H2 Ho ->. apply Hinj in Ej as ->. pose proof (dirmax_unique _ _ _ _ _ _ _ HM1 HM2 H1 H2) as <-. done. }
  destruct (negb (accof s i =? gsIter s) || (gof s i >? c + gof s u)) eqn:Eup.
  2:{ right. exists g, w. split_and!; [done|done|apply bmono_refl|done|lia|]. apply Htgt. rewrite E8 in Eup. fold s. lia. }
  set (ng := c + gof s u) in *. set (s1 := set_g (set_acc s i) i (Z.min INFINITECOST ng)).
  assert (gof s1 i = Z.min INFINITECOST ng) as Eg1 by (unfold s1; rewrite gof_set_g, decide_True; done). rewrite Eg1. set (p := Z.min INFINITECOST ng).
  assert (static s1 = static s0) as Hst1 by done. assert (0 <= p <= INFINITECOST) as Hng by (unfold p, INFINITECOST in *; lia).
  destruct (bb_rep _ _ _ B) as (R&EN&ES). assert (0 <= p - wF w < 255 * D) as Hwin by (rewrite HFu; unfold p, ng; lia).
  assert ((p, i) ∉ wq w) as Hnew. { intros Hin. destruct (bb_pend _ _ _ B p i Hin) as [Ha Hg]. fold s in Ha, Hg. rewrite Ha, E8 in Eup. unfold p, INFINITECOST in *. lia. }
  pose proof (slots_bound closed g w p i B Hvn Hic Hnew) as Hsl.
  destruct (decide (slots w p < bsz)) as [Hroom|Hroom].
  2:{ left. destruct (sinsert_full (gbL g) w i p R) as (b'&->); [lia|lia|]. split; [done|lia]. }
  right. pose proof (sinsert_spec (255 * D) bsz (gbL g) w i p R EN ES ltac:(done)) as HI. replace ((0 <=? p - wF w) && (p - wF w <? 255 * D)) with true in HI by lia.
  destruct HI as (b'&->&R'&EN'&ES'). cbn [slift obind]. cbn [wstep snd] in R'. replace ((0 <=? p - wF w) && (p - wF w <? 255 * D)) with true in R' by lia. cbn [snd] in R'.
  destruct (bb_src _ _ _ B) as (Has&Hgs). fold s in Has, Hgs.
  assert (i <> src) as Hisrc. { intros ->. rewrite Has, E8, Hgs in Eup. unfold ng in Eup. lia. }
  set (w' := mkW (wF w) (place p i (wq w)) (wk w) (wold w && negb (p =? wF w))). fold w' in R'.
  assert (forall j, accof s1 j = if decide (j = i) then iter else accof s j) as Hacc'. { intros j. change (accof s1 j) with (accof (set_acc s i) j). by rewrite accof_set_acc, E8. }
  assert (forall j, gof s1 j = if decide (j = i) then p else gof s j) as Hgof'. { intros j. unfold s1. by rewrite gof_set_g. }
  assert (u <> i) as Hui by (intros ->; done). destruct (srep_sorted _ _ R) as [Hso _].
  exists (mkGSB s1 b'), w'. split; [done|]. split; [|split; [|split; [done|split; [cbn; rewrite place_length; lia|]]]].
  - split; cbn [gbS gbL].
    + done.
    + done.
    + apply (bb_F _ _ _ B).
    + intros k j Hj. apply place_in in Hj as [[= -> ->]|Hj]; [rewrite Hacc', Hgof', !decide_True by done; lia|]. destruct (bb_pend _ _ _ B k j Hj) as [Ha Hg]. fold s in Ha, Hg. rewrite Hacc', Hgof'. destruct (decide (j = i)) as [->|]; [|done]. split; [done|]. rewrite Ha, E8 in Eup. unfold p. lia.
    + intros j. rewrite Hacc', Hgof'. destruct (decide (j = i)) as [->|Hne].
      * intros _. split; [done|]. split; [done|]. split; [right; left; apply place_in; by left|]. intros Hlt. replace p with (gof s u + c) by (unfold p, ng in *; lia). apply path_snoc with (u := cellof u); [rewrite Eu; apply Hpu; unfold p, ng in *; lia|]. exact HE.
      * intros Ha. destruct (bb_acc _ _ _ B j Ha) as (A1&A2&A3&A4). fold s in A2, A3, A4. split; [done|]. split; [done|]. split; [|done]. destruct A3 as [?|[?|?]]; [by left|right; left; apply place_in; by right|by right; right].
    + intros j Hj. destruct (bb_closed _ _ _ B j Hj) as [Ha Hg]. rewrite Hacc', Hgof'. destruct (decide (j = i)) as [->|]; [done|done].
    + rewrite Hacc', Hgof'. rewrite !decide_False by congruence. done.
    + intros j. rewrite Hacc'. destruct (decide (j = i)); [lia|]. apply (bb_le _ _ _ B).
    + apply place_nodup; [apply (bb_nodup _ _ _ B)|done].
    + destruct (bb_cons _ _ _ B) as (cons&Hl&Hn&Hcl). exists cons. split; [done|]. split; [|done]. cbn [wF wq w']. destruct (decide (wF w = p)) as [e|e].
      * rewrite e. rewrite place_atprio by done. rewrite e in Hn. rewrite app_assoc. apply NoDup_app. split; [done|]. split; [|apply NoDup_singleton]. intros x Hx Hx2. apply elem_of_list_singleton in Hx2 as ->. apply elem_of_app in Hx as [Hx|Hx]; [by apply Hic, Hcl|]. apply atprio_in in Hx as ([k j]&Hj&E1'&E2'). cbn in E1', E2'. subst. done.
      * rewrite place_atprio_ne by done. done.
  - intros j Hj. fold s in Hj |- *. cbn [gbS]. rewrite Hacc', Hgof'. destruct (decide (j = i)) as [->|]; [|auto with lia]. split; [done|]. split; [|done]. rewrite Hj, E8 in Eup. unfold p. lia.
  - cbn [gbS]. apply Htgt. rewrite Hacc', Hgof', !decide_True by done. unfold p, ng. lia.
Qed.

Lemma brelaxall_ok closed u expcost dirs : forall g w,
  bbase closed g w -> u ∈ closed -> wF w = gof (gbS g) u -> (forall d, d ∈ dirs -> d ∈ gdirs) -> getCost grid s0 (cellof u).1 (cellof u).2 = Ok expcost ->
  (brelaxall grid obs closed (cellof u).1 (cellof u).2 expcost dirs g = Exn GFull /\ bsz < W * H) \/
  exists g' w', brelaxall grid obs closed (cellof u).1 (cellof u).2 expcost dirs g = Ok g' /\ bbase closed g' w' /\ bmono closed g g' /\ wF w' = wF w /\ (length (wq w') <= length dirs + length (wq w))%nat /\
    forall d j c M, d ∈ dirs -> valid j -> cellof j = ((cellof u).1 + d.1.1, (cellof u).2 + d.1.2) ->
      (exists t, t ∈ dcells (cellof u).1 (cellof u).2 d /\ blockcost grid (gsDown s0) t M) -> (forall t k, t ∈ dcells (cellof u).1 (cellof u).2 d -> blockcost grid (gsDown s0) t k -> k <= M) -> M < obs -> c = (M + 1) * dlen (gsDist s0) d ->
      accof (gbS g') j = iter /\ gof (gbS g') j <= gof (gbS g) u + c.
Proof.
  induction dirs as [|d dirs IH]; intros g w B Hu HF Hd Hexp; cbn [brelaxall].
  - right. exists g, w. split_and!; [done|done|apply bmono_refl|done|cbn; lia|]. intros d j c M Hdn. by apply elem_of_nil in Hdn.
  - destruct (brelax1_ok closed u d g w expcost B Hu HF (Hd d ltac:(left)) Hexp) as [[-> Hsz]|(g1&w1&E1&B1&M1&F1&L1&Ht1)]; [by left|]. rewrite E1. cbn [obind].
    assert (forall i, i ∈ closed -> gof (gbS g1) i = gof (gbS g) i) as Hg1. { intros i Hi. destruct (bb_closed _ _ _ B i Hi) as [Ha _]. destruct (M1 i Ha) as (_&_&?); auto. }
    destruct (IH g1 w1 B1 Hu) as [[-> Hsz]|(g2&w2&E2&B2&M2&F2&L2&Ht2)]; [by rewrite F1, Hg1|intros d' Hd'; apply Hd; by right|done|by left|].
    right. exists g2, w2. split_and!; [done|done|by eapply bmono_trans|by rewrite F2|cbn; lia|]. intros d' j c M Hd' Hvj Ej H1 H2 Ho Hc. apply elem_of_cons in Hd' as [->|Hd'].
    + destruct (Ht1 j c M Hvj Ej H1 H2 Ho Hc) as [Ha Hg]. destruct (M2 j Ha) as (Ha2&Hg2&_). split; [done|lia].
    + rewrite <- (Hg1 u Hu). by apply (Ht2 d' j c M).
Qed.

(** Taking the least element out of the list. *)
Lemma bpop_ok closed g w p u q : bbase closed g w -> wq w = (p, u) :: q ->
  exists l' w', spop (gbL g) = Ok (Some u, l') /\ wq w' = q /\ wF w' = p /\ bbase ({[u]} ∪ closed) (mkGSB (gbS g) l') w' /\ (u ∉ closed -> p = gof (gbS g) u) /\ valid u.
Proof.
  intros B Eq. destruct (bb_rep _ _ _ B) as (R&EN&ES). destruct (spop_spec _ _ _ _ R EN ES) as (r&l'&Ep&Ew&R'&EN'&ES'). cbn [wstep] in Ew, R'. rewrite Eq in Ew, R'. cbn [snd fst] in Ew, R'. injection Ew as ->.
  set (next := match q with (p', _) :: _ => p' =? p | [] => false end) in *.
  set (w' := mkW p q (if next then if p =? wF w then wk w + 1 else 1 else 0) (match q with [] => true | _ => false end)) in *.
  exists l', w'. split; [done|]. split; [done|]. split; [done|]. destruct (srep_sorted _ _ R) as [Hso Hge]. rewrite Eq in Hso. inversion Hso as [|? ? Hso1 Hso2]; subst.
  assert ((p, u) ∈ wq w) as Hin by (rewrite Eq; left). destruct (bb_pend _ _ _ B p u Hin) as [Hau Hgu]. pose proof (Hge p u Hin) as HFp. destruct (bb_acc _ _ _ B u Hau) as (Hvu&Hbu&Hcu&_).
  split; [|split; [|done]].
  - split; cbn [gbS gbL].
    + apply (bb_static _ _ _ B).
    + done.
    + cbn. pose proof (bb_F _ _ _ B). lia.
    + intros k i Hi. apply (bb_pend _ _ _ B). rewrite Eq. by right.
    + intros i Hi. destruct (bb_acc _ _ _ B i Hi) as (A1&A2&A3&A4). split; [done|]. split; [done|]. split; [|done]. destruct A3 as [?|[A3|?]]; [left; set_solver| |by right; right]. rewrite Eq in A3. apply elem_of_cons in A3 as [[= -> ->]|A3]; [left; set_solver|by right; left].
    + intros i Hi. cbn [wF w']. apply elem_of_union in Hi as [->%elem_of_singleton|Hi]; [split; [done|lia]|]. destruct (bb_closed _ _ _ B i Hi). split; [done|lia].
    + apply (bb_src _ _ _ B).
    + apply (bb_le _ _ _ B).
    + pose proof (bb_nodup _ _ _ B) as Hn. rewrite Eq in Hn. by apply NoDup_cons in Hn as [_ ?].
    + cbn [wF wq wk w']. pose proof (atprio_nodup p _ (bb_nodup _ _ _ B)) as Hn0. rewrite Eq, atprio_cons in Hn0. cbn [fst snd] in Hn0. rewrite Z.eqb_refl in Hn0. destruct next.
      * destruct (p =? wF w) eqn:EpF.
        -- destruct (bb_cons _ _ _ B) as (cons&Hl&Hn&Hc). assert (wF w = p) as EF by lia. rewrite EF, Eq, atprio_cons in Hn. cbn [fst snd] in Hn. rewrite Z.eqb_refl in Hn. exists (u :: cons). split; [cbn; lia|]. split; [|intros i Hi; apply elem_of_cons in Hi as [->|Hi]; [set_solver|specialize (Hc i Hi); set_solver]].
           eapply NoDup_Permutation_proper; [|exact Hn]. cbn. apply Permutation_middle.
        -- exists [u]. split; [done|]. split; [done|]. intros i Hi. apply elem_of_list_singleton in Hi as ->. set_solver.
      * exists []. split; [done|]. split; [by apply NoDup_cons in Hn0 as [_ ?]|]. intros i Hi. by apply elem_of_nil in Hi.
  - intros Hnc. destruct Hcu as [?|[Hcu|Hcu]]; [done| |lia]. rewrite Eq in Hcu. apply elem_of_cons in Hcu as [[= E']|Hcu]; [done|]. eapply Forall_forall in Hso2; [|exact Hcu]. unfold le1 in Hso2. cbn in Hso2. lia.
Qed.

Notation edges := (edges grid obs s0).
Lemma edges_pop closed u s : u ∈ closed -> edges closed s -> edges ({[u]} ∪ closed) s.
Proof. intros Hu He i j c Hi. apply He. set_solver. Qed.

Lemma bexpand_ok closed g w u expcost : bbase ({[u]} ∪ closed) g w -> edges closed (gbS g) -> wF w = gof (gbS g) u -> valid u -> getCost grid s0 (cellof u).1 (cellof u).2 = Ok expcost ->
  (brelaxall grid obs ({[u]} ∪ closed) (cellof u).1 (cellof u).2 expcost gdirs g = Exn GFull /\ bsz < W * H) \/
  exists g' w', brelaxall grid obs ({[u]} ∪ closed) (cellof u).1 (cellof u).2 expcost gdirs g = Ok g' /\ bbase ({[u]} ∪ closed) g' w' /\ edges ({[u]} ∪ closed) (gbS g') /\ (forall j, accof (gbS g) j = iter -> accof (gbS g') j = iter) /\
    (length (wq w') <= 16 + length (wq w))%nat.
Proof.
  intros B He HF Hvu Hexp. set (cl := {[u]} ∪ closed) in *. destruct (brelaxall_ok cl u expcost gdirs g w B ltac:(set_solver) HF ltac:(done) Hexp) as [?|(g'&w'&E'&B'&M'&F'&L'&Ht)]; [by left|right].
  assert (forall i, i ∈ cl -> gof (gbS g') i = gof (gbS g) i) as Hg. { intros i Hi. destruct (bb_closed _ _ _ B i Hi) as [Ha _]. destruct (M' i Ha) as (_&_&?); auto. }
  exists g', w'. split; [done|]. split; [done|]. split; [|split; [intros j Hj; by apply (M' j)|done]].
  intros i j c Hi Hvj HE. rewrite (Hg i Hi). apply elem_of_union in Hi as [->%elem_of_singleton|Hi].
  - unfold GridProofs2.E in HE. rewrite (surjective_pairing (cellof u)) in HE. apply edge_dir in HE as (d&M&Hd&Ej&H1&H2&HM&->). by eapply (Ht d j).
  - destruct (He i j c Hi Hvj HE) as [Ha Hga]. destruct (M' j Ha) as (Ha2&Hg'&_). split; [done|]. lia.
Qed.

Lemma bloop_ok goal fuel : forall closed g w, bbase closed g w -> edges closed (gbS g) -> (16 * Z.to_nat (W * H) + length (wq w) < fuel + 16 * size closed)%nat ->
  (bloop grid obs tc fuel goal closed g = Exn GFull /\ bsz < W * H) \/
  exists g' closed' w', bloop grid obs tc fuel goal closed g = Ok g' /\ bbase closed' g' w' /\ edges closed' (gbS g') /\ (forall j, accof (gbS g) j = iter -> accof (gbS g') j = iter) /\
    (wq w' = [] \/ bgoes_on tc (gof (gbS g') goal) (getminkey (gbL g')) = false).
Proof.
  induction fuel as [|fuel IH]; intros closed g w B He Hf.
  - exfalso. assert (size closed <= Z.to_nat (W * H))%nat; [|lia]. rewrite <- (size_set_seq (C := gset nat) 0 (Z.to_nat (W * H))). apply subseteq_size. intros i Hi. apply elem_of_set_seq.
    destruct (bb_closed _ _ _ B i Hi) as [Ha _]. destruct (bb_acc _ _ _ B i Ha) as (Hv&_). unfold GridProofs2.valid in Hv. lia.
  - cbn [bloop]. destruct (bb_rep _ _ _ B) as (R&EN&ES). rewrite (srep_empty _ _ R). destruct (wq w) as [|[p u] q] eqn:Eq.
    { rewrite bool_decide_true by done. cbn [orb]. right. exists g, closed, w. split_and!; try done. by left. }
    rewrite bool_decide_false by done. cbn [orb]. destruct (bgoes_on tc (gof (gbS g) goal) (getminkey (gbL g))) eqn:Ego; cbn [negb].
    2:{ right. exists g, closed, w. split_and!; try done. by right. }
    destruct (bpop_ok closed g w p u q B Eq) as (l'&w1&->&Eq1&EF1&B1&Hp&Hvu). cbn [slift obind fst snd]. destruct (decide (u ∈ closed)) as [Hu|Hu].
    + replace ({[u]} ∪ closed) with closed in B1 by set_solver. destruct (IH closed _ w1 B1 He) as [[-> ?]|(g2&cl2&w2&E2&B2&He2&Hm2&Hend)]; [rewrite Eq1; cbn in Hf; lia|by left|]. right. exists g2, cl2, w2. rewrite E2. done.
    + cbn [gbS]. pose proof (static_inv _ _ (bb_static _ _ _ B)) as (_&_&E3&_). rewrite E3.
      destruct (getCost_ok grid s0 (cellof u).1 (cellof u).2 Hwf) as (expcost&Eexp&_); [rewrite <- surjective_pairing; by apply inblocks_cellof|].
      change (Z.of_nat u mod W) with (cellof u).1. change (Z.of_nat u / W) with (cellof u).2. rewrite (getCost_static grid s0) by apply (bb_static _ _ _ B). rewrite Eexp. cbn [glift obind].
      destruct (bexpand_ok closed _ w1 u expcost B1 He) as [[-> ?]|(g2&w2&E2&B2&He2&Hm2&Hl2)]; [by rewrite EF1, Hp|done|done|by left|]. rewrite E2. cbn [obind].
      destruct (IH _ g2 w2 B2 He2) as [[-> ?]|(g3&cl3&w3&E3'&B3&He3&Hm3&Hend)]; [rewrite size_union, size_singleton by set_solver; rewrite Eq1 in Hl2; cbn in Hf; lia|by left|].
      right. exists g3, cl3, w3. split_and!; auto.
Qed.

(** What the final state says about every path. *)
Definition bleast (g : gsb) (w : win) (L : Z) : Prop := (wq w = [] /\ L = INFINITECOST) \/ exists k i q, wq w = (k, i) :: q /\ L = gof (gbS g) i.
Lemma bleast_le closed g w L : bbase closed g w -> bleast g w L -> 0 <= L <= INFINITECOST /\ forall k i, (k, i) ∈ wq w -> L <= k.
Proof.
  intros B [[-> ->]|(k&i&q&Eq&->)]; [split; [unfold INFINITECOST; lia|intros k i Hi; by apply elem_of_nil in Hi]|]. destruct (bb_pend _ _ _ B k i) as [Ha Hg]; [rewrite Eq; left|]. destruct (bb_acc _ _ _ B i Ha) as (_&?&_).
  split; [done|]. intros k' i' Hi. destruct (bb_rep _ _ _ B) as (R&_). destruct (srep_sorted _ _ R) as [Hso _]. rewrite Eq in Hso, Hi. inversion Hso as [|? ? H1 H2]; subst. apply elem_of_cons in Hi as [[= -> ->]|Hi]; [lia|]. eapply Forall_forall in H2; [|exact Hi]. unfold le1 in H2. cbn in H2. lia.
Qed.
Lemma edge_nonneg u v c : edge grid W H (gsDown s0) obs (gsDist s0) u v c -> 0 <= c.
Proof.
  intros (_&_&len&cells&M&Hmv&_&(t&_&(dx&dy&_&_&<-)&_)&_&->). destruct u as [ux uy]. apply move_dir in Hmv as (d&Hd&_&->&_). pose proof (Hgrid (t.1 * gsDown s0 + dx) (t.2 * gsDown s0 + dy)).
  assert (0 <= dlen (gsDist s0) d); [|nia]. unfold dlen. destruct (_ || _); [lia|]. destruct (d.2); lia.
Qed.
Lemma bfinal_ok closed g w L : bbase closed g w -> edges closed (gbS g) -> bleast g w L -> forall j p, valid j -> gpath (cellof j) p ->
  (accof (gbS g) j = iter /\ gof (gbS g) j <= p) \/ L <= p \/ INFINITECOST <= p.
Proof.
  intros B He HL. pose proof (bb_static _ _ _ B) as Hst. destruct (bleast_le _ _ _ _ B HL) as [HL0 HLp].
  assert (forall j, valid j -> accof (gbS g) j = iter -> forall p, gof (gbS g) j <= p -> (j ∈ closed /\ gof (gbS g) j <= p) \/ L <= p \/ INFINITECOST <= p) as Hfin.
  { intros j Hvj Ha p Hp. destruct (bb_acc _ _ _ B j Ha) as (_&_&[Hcl|[Hk|Hi]]&_); [by left| |right; right; lia]. right. left. pose proof (HLp _ _ Hk). lia. }
  intros j p Hvj Hp. enough ((j ∈ closed /\ gof (gbS g) j <= p) \/ L <= p \/ INFINITECOST <= p) as [[Hc ?]|?]; [left; split; [apply (bb_closed _ _ _ B j Hc)|done]|by right|].
  remember (cellof j) as v eqn:Ev. revert j Hvj Ev. induction Hp as [|u v c e Hp IH He']; intros j Hvj Ev.
  - assert (j = src) as ->. { rewrite <- (cellid_cellof s0 Hwf (gbS g) j Hst), <- Ev. by apply cellid_cellof. } destruct (bb_src _ _ _ B) as (Ha&Hg). apply Hfin; [done|done|lia].
  - assert (inblocks W H u) as Hbu by apply He'. destruct (cellof_cellid s0 (gbS g) u Hst Hbu) as [Eu Hvu]. set (i := cellid (gbS g) u.1 u.2) in *.
    assert (E i j e) as HE by (unfold GridProofs2.E; rewrite Eu, <- Ev; done). pose proof (edge_nonneg _ _ _ He') as He0.
    destruct (IH i Hvu ltac:(done)) as [[Hi Hg]|[HLi|HI]]; [|right; left; lia|right; right; lia].
    destruct (He i j e Hi Hvj HE) as [Ha Hg']. apply Hfin; [done|done|lia].
Qed.
End bd.
