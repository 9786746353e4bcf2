From Coq Require Import ZifyBool.
From Verif Require Import Base DistModel HeapModel HeapProofs GridModel GridSpec GridProofs.
Ltac Zify.zify_post_hook ::= idtac.
Local Open Scope Z_scope.

Definition static (s : gsearch) := (gsMapW s, gsMapH s, gsW s, gsH s, gsCell s, gsDown s, gsDist s, gsIter s, gsGoal s, gsTerm s).
Lemma static_inv s s' : static s = static s' -> gsMapW s = gsMapW s' /\ gsMapH s = gsMapH s' /\ gsW s = gsW s' /\ gsH s = gsH s' /\ gsCell s = gsCell s' /\
  gsDown s = gsDown s' /\ gsDist s = gsDist s' /\ gsIter s = gsIter s' /\ gsGoal s = gsGoal s' /\ gsTerm s = gsTerm s'.
Proof. unfold static. intros [= ]. done. Qed.
Lemma gof_set_g s i v j : gof (set_g s i v) j = if decide (j = i) then v else gof s j.
Proof. unfold gof, set_g. cbn [gsG]. destruct (decide (j = i)) as [->|]; [by rewrite lookup_insert|by rewrite lookup_insert_ne]. Qed.
Lemma accof_set_acc s i j : accof (set_acc s i) j = if decide (j = i) then gsIter s else accof s j.
Proof. unfold accof, set_acc. cbn [gsAcc]. destruct (decide (j = i)) as [->|]; [by rewrite lookup_insert|by rewrite lookup_insert_ne]. Qed.

Lemma size_lt (m : gmap nat Z) (N : nat) i : (forall j k, m !! j = Some k -> (j < N)%nat) -> (i < N)%nat -> m !! i = None -> (size m < N)%nat.
Proof.
  intros H Hi Hn. rewrite <- (size_dom (D := gset nat)), <- (size_set_seq (C := gset nat) 0 N). apply subset_size. split.
  - intros j Hj. apply elem_of_dom in Hj as [k Hk]. apply elem_of_set_seq. specialize (H _ _ Hk). lia.
  - intros Hs. assert (i ∈ dom m) as Hd by (apply Hs, elem_of_set_seq; lia). apply elem_of_dom in Hd as [? ?]. congruence.
Qed.

Section geom.
Context (s0 : gsearch).
Notation W := (gsW s0). Notation H := (gsH s0).
Definition cellof (i : nat) : Z * Z := (Z.of_nat i mod W, Z.of_nat i / W).
Definition valid (i : nat) : Prop := Z.of_nat i < W * H.
Context (Hwf : gwf s0).
Lemma inblocks_cellof i : valid i -> inblocks W H (cellof i).
Proof. intros Hv. destruct Hwf as (?&?&?&_). unfold inblocks, cellof, valid in *. cbn [fst snd]. split; [apply Z.mod_pos_bound; lia|]. split; [apply Z.div_pos; lia|]. apply Z.div_lt_upper_bound; lia. Qed.
Lemma cellid_cellof s i : static s = static s0 -> cellid s (cellof i).1 (cellof i).2 = i.
Proof. intros Hs%static_inv. destruct Hs as (_&_&Hw&_). unfold cellid, cellof. rewrite Hw. cbn [fst snd]. destruct Hwf as (_&?&_). pose proof (Z.div_mod (Z.of_nat i) W ltac:(lia)). lia. Qed.
Lemma cellof_cellid s c : static s = static s0 -> inblocks W H c -> cellof (cellid s c.1 c.2) = c /\ valid (cellid s c.1 c.2).
Proof.
  intros Hs%static_inv [Hx Hy]. destruct Hs as (_&_&Hw&_). unfold cellid, cellof, valid. rewrite Hw. destruct c as [x y]. cbn [fst snd] in *. rewrite Z2Nat.id by nia. split; [|nia].
  f_equal.
  - rewrite Z.mul_comm, Z.mod_add by lia. apply Z.mod_small. lia.
  - rewrite Z.mul_comm, Z.div_add by lia. rewrite Z.div_small by lia. lia.
Qed.

End geom.

Section dij.
Context (grid : Z -> Z -> Z) (obs : Z) (tc : term) (s0 : gsearch) (src : nat) (hh : nat -> Z).
Notation W := (gsW s0). Notation H := (gsH s0). Notation iter := (gsIter s0).
Notation cellof := (cellof s0). Notation valid := (valid s0).
Definition E (i j : nat) (c : Z) : Prop := edge grid W H (gsDown s0) obs (gsDist s0) (cellof i) (cellof j) c.
Notation gpath := (path grid W H (gsDown s0) obs (gsDist s0) (cellof src)).
Context (Hwf : gwf s0).
Context (Hgrid : forall x y, 0 <= grid x y) (Hobs : obs <= 255).
Context (Hdist : 0 <= (gsDist s0).1.1 /\ 0 <= (gsDist s0).1.2 /\ 0 <= (gsDist s0).2 /\ 255 * Z.max (gsDist s0).1.1 (Z.max (gsDist s0).1.2 (gsDist s0).2) + INFINITECOST <= 2147483647).
Context (Hkey : forall s i g, static s = static s0 -> valid i -> 0 <= g <= INFINITECOST -> mkkey tc s g (cellof i).1 (cellof i).2 = Ok (g + hh i)).
Context (Hcons : forall i j c, valid i -> valid j -> E i j c -> hh i <= c + hh j) (Hh0 : forall i, valid i -> 0 <= hh i).

Record base (closed : gset nat) (s : gsearch) (m : gmap nat Z) : Prop := {
  b_static : static s = static s0;
  b_rep : repx None (gsOpen s) m;
  b_ord : ord intops 1 (gsOpen s);
  b_open : forall i k, m !! i = Some k -> i ∉ closed /\ accof s i = iter /\ k = gof s i + hh i;
  b_acc : forall i, accof s i = iter -> valid i /\ 0 <= gof s i <= INFINITECOST /\ (i ∈ closed \/ is_Some (m !! i) \/ gof s i = INFINITECOST) /\ (gof s i < INFINITECOST -> gpath (cellof i) (gof s i));
  b_closed : forall i, i ∈ closed -> accof s i = iter;
  b_src : accof s src = iter /\ gof s src = 0 /\ (src ∈ closed \/ is_Some (m !! src));
  b_le : forall i, accof s i <= iter
}.
Definition mono (closed : gset nat) (s s' : gsearch) : Prop :=
  forall j, accof s j = iter -> accof s' j = iter /\ gof s' j <= gof s j /\ (j ∈ closed -> gof s' j = gof s j).
Lemma mono_refl closed s : mono closed s s.
Proof. intros j Hj. auto with lia. Qed.
Lemma mono_trans closed s1 s2 s3 : mono closed s1 s2 -> mono closed s2 s3 -> mono closed s1 s3.
Proof. intros H1 H2 j Hj. destruct (H1 j Hj) as (Ha&Hb&Hc). destruct (H2 j Ha) as (Ha'&Hb'&Hc'). split; [done|]. split; [lia|]. intros Hcl. rewrite Hc', Hc; auto. Qed.

Lemma static_gwf s : static s = static s0 -> gwf s.
Proof. intros Hs%static_inv. unfold gwf. destruct Hs as (->&->&->&->&_&->&_). apply Hwf. Qed.

Lemma getCost_static s x y : static s = static s0 -> getCost grid s x y = getCost grid s0 x y.
Proof.
  intros Hs%static_inv. destruct Hs as (E1&E2&_&_&_&E6&_). unfold getCost. rewrite E6.
  assert (forall x y, rdgrid grid s x y = rdgrid grid s0 x y) as Er by (intros; unfold rdgrid; by rewrite E1, E2).
  rewrite Er. destruct (rdgrid grid s0 _ _) as [m| | |]; cbn [obind]; try done.
  generalize (flat_map (fun dy => map (fun dx => (x * gsDown s0 + dx, y * gsDown s0 + dy)) (seqZ 0 (gsDown s0))) (seqZ 0 (gsDown s0))). intros l. revert m.
  induction l as [|c l IH]; intros m; cbn [maxover]; [done|]. rewrite Er. destruct (rdgrid grid s0 _ _); cbn [obind]; auto.
Qed.

(** One direction of the expansion of [u], whose key is at least [F]. *)
Lemma relax1_ok closed u d s m expcost F :
  base closed s m -> u ∈ closed -> d ∈ gdirs -> getCost grid s0 (cellof u).1 (cellof u).2 = Ok expcost ->
  F <= gof s u + hh u -> ((forall i, valid i -> hh i = 0) \/ F < INFINITECOST) -> (forall i, i ∈ closed -> gof s i + hh i <= F) ->
  (forall j k, m !! j = Some k -> F <= k) ->
  exists s' m', relax1 grid obs tc closed (cellof u).1 (cellof u).2 expcost d s = Ok s' /\ base closed s' m' /\ mono closed s s' /\ (forall j k, m' !! j = Some k -> F <= k) /\
    forall j c M, valid j -> cellof j = ((cellof u).1 + d.1.1, (cellof u).2 + d.1.2) ->
      (exists t, t ∈ dcells (cellof u).1 (cellof u).2 d /\ blockcost grid (gsDown s0) t M) -> (forall t k, t ∈ dcells (cellof u).1 (cellof u).2 d -> blockcost grid (gsDown s0) t k -> k <= M) -> M < obs -> c = (M + 1) * dlen (gsDist s0) d ->
      accof s' j = iter /\ gof s' j <= gof s u + c.
Proof.
  intros B Hu Hd Hexp HF Hcap Hclf Hopf. pose proof (b_static _ _ _ B) as Hst. pose proof (static_inv _ _ Hst) as (E1&E2&E3&E4&E5&E6&E7&E8&E9&E10).
  pose proof (b_closed _ _ _ B u Hu) as Hau. destruct (b_acc _ _ _ B u Hau) as (Hvu&Hgu&_&Hpu). pose proof (inblocks_cellof s0 Hwf u Hvu) as Hbu.
  destruct (cellof u) as [ux uy] eqn:Eu. cbn [fst snd] in *. set (nx := ux + d.1.1). set (ny := uy + d.1.2).
  unfold relax1. fold nx ny. destruct (withinMap s nx ny) eqn:Ewm; cbn [negb]; unfold withinMap in Ewm.
  2:{ exists s, m. split_and!; [done|done|apply mono_refl|done|]. intros j c M Hvj Ej. pose proof (inblocks_cellof s0 Hwf j Hvj) as [Hx Hy]. rewrite Ej in Hx, Hy. cbn [fst snd] in Hx, Hy. exfalso. unfold nx, ny in *. lia. }
  assert (inblocks W H (nx, ny)) as Hbn by (split; cbn; lia). destruct (cellof_cellid s0 s (nx, ny) Hst Hbn) as [Ec Hvn]. cbn [fst snd] in Ec, Hvn. set (i := cellid s nx ny) in *.
  assert (forall j, cellof j = (nx, ny) -> j = i) as Hinj. { intros j Ej. rewrite <- (cellid_cellof s0 Hwf s j Hst). rewrite Ej. done. }
  assert (forall M, (exists t, t ∈ dcells ux uy d /\ blockcost grid (gsDown s0) t M) -> (forall t k, t ∈ dcells ux uy d -> blockcost grid (gsDown s0) t k -> k <= M) -> M < obs -> E u i ((M + 1) * dlen (gsDist s0) d)) as HE.
  { intros M H1 H2 Ho. unfold E. rewrite Eu, Ec. by apply dir_edge. }
  destruct (decide (i ∈ closed)) as [Hic|Hic].
  { exists s, m. split_and!; [done|done|apply mono_refl|done|]. intros j c M Hvj Ej H1 H2 Ho ->. apply Hinj in Ej as ->. split; [by apply (b_closed _ _ _ B)|].
    specialize (Hclf i Hic). pose proof (Hcons u i _ Hvu Hvn (HE M H1 H2 Ho)). lia. }
  destruct (mapcost_ok grid s ux uy expcost d (static_gwf s Hst) Hd) as (M&EM&HM1&HM2).
  { by rewrite E3, E4. } { by rewrite E3, E4. } { by rewrite getCost_static. } rewrite E6 in HM1, HM2.
  unfold mapcost_of in EM. fold nx ny in EM. destruct (getCost grid s nx ny) as [cn| | |]; try discriminate. cbn [obind] in EM |- *.
  assert ((match d.2 with None => Ok (Z.max cn expcost) | Some (x0, y0, (x1, y1)) => do c0 <- getCost grid s (ux + x0) (uy + y0); do c1 <- getCost grid s (ux + x1) (uy + y1); Ok (Z.max (Z.max (Z.max cn expcost) c0) c1) end) = Ok M) as EM' by exact EM.
  rewrite EM'. cbn [obind]. clear EM EM'.
  assert (0 <= M) as HM0. { destruct HM1 as (t&_&(dx&dy&_&_&<-)&_). apply Hgrid. }
  destruct (M >=? obs) eqn:Eo.
  { exists s, m. split_and!; [done|done|apply mono_refl|done|]. intros j c M' Hvj Ej H1 H2 Ho ->. exfalso. pose proof (dirmax_unique _ _ _ _ _ _ _ HM1 HM2 H1 H2). lia. }
  assert ((if (d.1.1 =? 0) || (d.1.2 =? 0) then (gsDist s).1.1 else match d.2 with None => (gsDist s).1.2 | Some _ => (gsDist s).2 end) = dlen (gsDist s0) d) as -> by (unfold dlen; by rewrite E7).
  set (dl := dlen (gsDist s0) d) in *. assert (0 <= dl /\ 255 * dl + INFINITECOST <= 2147483647) as [Hdl0 Hdl].
  { unfold dl, dlen. destruct (_ || _); [lia|]. destruct (d.2); lia. }
  assert (0 <= (M + 1) * dl <= 255 * dl) as Hc by nia. unfold int32 at 1. replace (_ <=? _) with true by (unfold INFINITECOST in *; lia). cbn [obind].
  assert (cellid s ux uy = u) as ->. { pose proof (cellid_cellof s0 Hwf s u Hst) as He. by rewrite Eu in He. }
  unfold int32 at 1. replace (_ <=? _) with true by lia. cbn [obind]. set (c := (M + 1) * dl) in *.
  specialize (HE M HM1 HM2 ltac:(lia)). fold dl c in HE.
  assert (forall s' , (accof s' i = iter /\ gof s' i <= gof s u + c) -> forall j c0 M0, valid j -> cellof j = (nx, ny) ->
      (exists t, t ∈ dcells ux uy d /\ blockcost grid (gsDown s0) t M0) -> (forall t k, t ∈ dcells ux uy d -> blockcost grid (gsDown s0) t k -> k <= M0) -> M0 < obs -> c0 = (M0 + 1) * dl ->
      accof s' j = iter /\ gof s' j <= gof s u + c0) as Htgt.
  { intros s' Hs' j c0 M0 Hvj Ej H1 H2 Ho ->. apply Hinj in Ej as ->. pose proof (dirmax_unique _ _ _ _ _ _ _ HM1 HM2 H1 H2) as <-. done. }
  destruct (negb (accof s i =? gsIter s) || (gof s i >? c + gof s u)) eqn:Eup.
  2:{ exists s, m. split_and!; [done|done|apply mono_refl|done|]. apply Htgt. rewrite E8 in Eup. lia. }
  set (ng := c + gof s u) in *. set (s1 := set_g (set_acc s i) i (Z.min INFINITECOST ng)).
  assert (gof s1 i = Z.min INFINITECOST ng) as Eg1 by (unfold s1; rewrite gof_set_g, decide_True; done). rewrite Eg1.
  assert (static s1 = static s0) as Hst1 by done. assert (0 <= Z.min INFINITECOST ng <= INFINITECOST) as Hng by (unfold INFINITECOST in *; lia).
  pose proof (Hkey s1 i _ Hst1 Hvn Hng) as Ek. rewrite Ec in Ek. cbn [fst snd] in Ek. rewrite Ek. cbn [obind].
  change (gsOpen s1) with (gsOpen s). set (key := Z.min INFINITECOST ng + hh i).
  destruct (b_src _ _ _ B) as (Has&Hgs&Hos).
  assert (i <> src) as Hisrc. { intros ->. rewrite Has, E8, Hgs in Eup. unfold ng in Eup. lia. }
  assert (exists o, hlift (if (idxof (gsOpen s) i =? 0)%nat then insertheap intops (gsOpen s) i key else updateheap intops (gsOpen s) i key) = Ok o /\ repx None o (<[i := key]> m) /\ ord intops 1 o) as (o&Eo'&Ro&Oo).
  { pose proof (b_rep _ _ _ B) as R. pose proof (b_ord _ _ _ B) as O. destruct (m !! i) as [k|] eqn:Emi.
    - destruct (idxof (gsOpen s) i =? 0)%nat eqn:Ei; [exfalso; apply Nat.eqb_eq in Ei; apply (proj2 (rep_none _ _ i R)) in Ei; congruence|].
      destruct (updateheap_spec intops intlaws _ _ i k key R O Emi) as (o&->&Ro&Oo). by exists o.
    - pose proof (proj1 (rep_none _ _ i R) Emi) as ->. cbn [Nat.eqb].
      destruct (insertheap_spec intops intlaws _ _ i key R O Emi) as (o&->&Ro&Oo); [|by exists o].
      assert (size m < Z.to_nat (W * H))%nat. { apply (size_lt m _ i); [|unfold valid in Hvn; lia|done]. intros j k Hj. destruct (b_open _ _ _ B _ _ Hj) as (_&Ha&_). destruct (b_acc _ _ _ B _ Ha) as (Hv&_). unfold valid in Hv. lia. }
      destruct Hwf as (_&_&_&_&_&Hsz). unfold HEAPSIZE in *. lia. }
  rewrite Eo'. cbn [obind]. exists (with_open s1 o), (<[i := key]> m).
  assert (forall j, accof (with_open s1 o) j = if decide (j = i) then iter else accof s j) as Hacc'. { intros j. change (accof (with_open s1 o) j) with (accof (set_acc s i) j). by rewrite accof_set_acc, E8. }
  assert (forall j, gof (with_open s1 o) j = if decide (j = i) then Z.min INFINITECOST ng else gof s j) as Hgof'. { intros j. change (gof (with_open s1 o) j) with (gof s1 j). unfold s1. by rewrite gof_set_g. }
  assert (F <= key) as HFk. { unfold key. pose proof (Hcons u i c Hvu Hvn HE). pose proof (Hh0 i Hvn). destruct Hcap as [Hz|Hz]; [rewrite (Hz u Hvu) in *; rewrite (Hz i Hvn) in *|]; unfold ng; lia. }
  assert (i ∈ closed -> False) as Hic' by done. assert (u <> i) as Hui by (intros ->; done).
  split_and!.
  - done.
  - split; try done.
    + intros j k. rewrite Hacc', Hgof'. destruct (decide (j = i)) as [->|Hne]; [rewrite lookup_insert; intros [= <-]; done|]. rewrite lookup_insert_ne by done. apply (b_open _ _ _ B).
    + intros j. rewrite Hacc', Hgof'. destruct (decide (j = i)) as [->|Hne].
      * intros _. split; [done|]. split; [done|]. split; [right; left; rewrite lookup_insert; eauto|]. intros Hlt. replace (Z.min INFINITECOST ng) with (gof s u + c) by (unfold ng in *; lia). apply path_snoc with (u := cellof u); [rewrite Eu; apply Hpu; unfold ng in *; lia|done].
      * rewrite lookup_insert_ne by done. apply (b_acc _ _ _ B).
    + intros j Hj. rewrite Hacc'. destruct (decide (j = i)); [done|]. by apply (b_closed _ _ _ B).
    + rewrite Hacc', Hgof'. destruct (decide (src = i)) as [->|]; [done|]. rewrite lookup_insert_ne by done. done.
    + intros j. rewrite Hacc'. destruct (decide (j = i)); [lia|]. apply (b_le _ _ _ B).
  - intros j Hj. rewrite Hacc', Hgof'. destruct (decide (j = i)) as [->|]; [|auto with lia]. split; [done|]. split; [|done]. rewrite Hj, E8 in Eup. lia.
  - intros j k. destruct (decide (j = i)) as [->|Hne]; [rewrite lookup_insert; intros [= <-]; done|]. rewrite lookup_insert_ne by done. apply Hopf.
  - apply Htgt. rewrite Hacc', Hgof', !decide_True by done. unfold ng. lia.
Qed.

Lemma relaxall_ok closed u expcost F dirs : forall s m,
  base closed s m -> u ∈ closed -> (forall d, d ∈ dirs -> d ∈ gdirs) -> getCost grid s0 (cellof u).1 (cellof u).2 = Ok expcost ->
  F <= gof s u + hh u -> ((forall i, valid i -> hh i = 0) \/ F < INFINITECOST) -> (forall i, i ∈ closed -> gof s i + hh i <= F) ->
  (forall j k, m !! j = Some k -> F <= k) ->
  exists s' m', relaxall grid obs tc closed (cellof u).1 (cellof u).2 expcost dirs s = Ok s' /\ base closed s' m' /\ mono closed s s' /\ (forall j k, m' !! j = Some k -> F <= k) /\
    forall d j c M, d ∈ dirs -> valid j -> cellof j = ((cellof u).1 + d.1.1, (cellof u).2 + d.1.2) ->
      (exists t, t ∈ dcells (cellof u).1 (cellof u).2 d /\ blockcost grid (gsDown s0) t M) -> (forall t k, t ∈ dcells (cellof u).1 (cellof u).2 d -> blockcost grid (gsDown s0) t k -> k <= M) -> M < obs -> c = (M + 1) * dlen (gsDist s0) d ->
      accof s' j = iter /\ gof s' j <= gof s u + c.
Proof.
  induction dirs as [|d dirs IH]; intros s m B Hu Hd Hexp HF Hcap Hclf Hopf; cbn [relaxall].
  - exists s, m. split_and!; [done|done|apply mono_refl|done|]. intros d j c M Hdn. by apply elem_of_nil in Hdn.
  - destruct (relax1_ok closed u d s m expcost F B Hu (Hd d ltac:(left)) Hexp HF Hcap Hclf Hopf) as (s1&m1&E1&B1&M1&Hop1&Ht1). rewrite E1. cbn [obind].
    assert (forall i, i ∈ closed -> gof s1 i = gof s i) as Hg1. { intros i Hi. destruct (M1 i (b_closed _ _ _ B i Hi)) as (_&_&?); auto. }
    destruct (IH s1 m1 B1 Hu) as (s2&m2&E2&B2&M2&Hop2&Ht2); [intros d' Hd'; apply Hd; by right|done|by rewrite Hg1|done|intros i Hi; rewrite Hg1 by done; auto|done|].
    exists s2, m2. split_and!; [done|done|by eapply mono_trans|done|]. intros d' j c M Hd' Hvj Ej H1 H2 Ho Hc. apply elem_of_cons in Hd' as [->|Hd'].
    + destruct (Ht1 j c M Hvj Ej H1 H2 Ho Hc) as [Ha Hg]. destruct (M2 j Ha) as (Ha2&Hg2&_). split; [done|lia].
    + rewrite <- (Hg1 u Hu). by apply (Ht2 d' j c M).
Qed.

Definition edges (closed : gset nat) (s : gsearch) : Prop :=
  forall i j c, i ∈ closed -> valid j -> E i j c -> accof s j = iter /\ gof s j <= gof s i + c.
Definition ordered (closed : gset nat) (s : gsearch) (m : gmap nat Z) : Prop :=
  forall i j k, i ∈ closed -> m !! j = Some k -> gof s i + hh i <= k.
Definition capped (closed : gset nat) (s : gsearch) : Prop :=
  (forall i, valid i -> hh i = 0) \/ forall i, i ∈ closed -> gof s i + hh i < INFINITECOST.
Record linv (closed : gset nat) (s : gsearch) (m : gmap nat Z) : Prop := {
  l_base : base closed s m; l_edges : edges closed s; l_ordered : ordered closed s m; l_capped : capped closed s
}.
Context (Hstop : forall gg k, 0 <= k -> goes_on tc gg k = true -> (forall i, valid i -> hh i = 0) \/ k < INFINITECOST).

Lemma expand_ok closed s m : linv closed s m -> m <> ∅ -> forall gg, (forall k, getminkeyheap intops (gsOpen s) = Ok k -> goes_on tc gg k = true) ->
  exists u k h' expcost s' m', getminkeyheap intops (gsOpen s) = Ok k /\ deleteminheap intops (gsOpen s) = Ok (u, h') /\ valid u /\ u ∉ closed /\
    getCost grid (with_open s h') (Z.of_nat u mod gsW s) (Z.of_nat u / gsW s) = Ok expcost /\
    relaxall grid obs tc ({[u]} ∪ closed) (Z.of_nat u mod gsW s) (Z.of_nat u / gsW s) expcost gdirs (with_open s h') = Ok s' /\ linv ({[u]} ∪ closed) s' m' /\ forall j, accof s j = iter -> accof s' j = iter.
Proof.
  intros [B He Ho Hc] Hm gg Hgo. pose proof (b_static _ _ _ B) as Hst. pose proof (static_inv _ _ Hst) as (_&_&E3&_).
  destruct (deletemin_spec intops intlaws _ _ (b_rep _ _ _ B) (b_ord _ _ _ B) Hm) as (u&k&h'&Eg&Ed&Emu&Hmin&R'&O').
  destruct (getmin_spec intops intlaws _ _ (b_rep _ _ _ B) (b_ord _ _ _ B) Hm) as (u'&k'&Eg'&Ek&_). rewrite Eg in Eg'. injection Eg' as <- <-.
  destruct (b_open _ _ _ B u k Emu) as (Huc&Hau&->). destruct (b_acc _ _ _ B u Hau) as (Hvu&Hgu&_).
  pose proof (inblocks_cellof s0 Hwf u Hvu) as Hbu. set (s1 := with_open s h'). set (F := gof s u + hh u) in *. set (cl := {[u]} ∪ closed).
  assert (static s1 = static s0) as Hst1 by done. pose proof (Hh0 u Hvu).
  assert (Z.of_nat u mod gsW s = (cellof u).1 /\ Z.of_nat u / gsW s = (cellof u).2) as [Ex Ey] by (unfold cellof; by rewrite E3).
  destruct (getCost_ok grid s0 (cellof u).1 (cellof u).2 Hwf) as (expcost&Eexp&_); [by rewrite <- surjective_pairing|].
  assert (base cl s1 (delete u m)) as B1.
  { split; try done.
    - intros i k Hi. apply lookup_delete_Some in Hi as [Hne Hi]. destruct (b_open _ _ _ B i k Hi) as (?&?&?). split; [set_solver|done].
    - intros i Hi. destruct (b_acc _ _ _ B i Hi) as (Hv&Hg&Hcl&Hp). split; [done|]. split; [done|]. split; [|done]. destruct (decide (i = u)) as [->|Hne]; [left; set_solver|]. destruct Hcl as [?|[?|?]]; [left; set_solver|right; left; by rewrite lookup_delete_ne|right; by right].
    - intros i Hi. apply elem_of_union in Hi as [->%elem_of_singleton|Hi]; [done|]. by apply (b_closed _ _ _ B).
    - destruct (b_src _ _ _ B) as (Ha&Hg&Hs). split; [done|]. split; [done|]. destruct (decide (src = u)) as [->|Hne]; [left; set_solver|]. destruct Hs as [|]; [left; set_solver|right; by rewrite lookup_delete_ne].
    - apply (b_le _ _ _ B). }
  assert ((forall i, valid i -> hh i = 0) \/ F < INFINITECOST) as Hcap by (apply (Hstop gg); [unfold F; lia|auto]).
  assert (forall i, i ∈ cl -> gof s1 i + hh i <= F) as Hclf. { intros i Hi. apply elem_of_union in Hi as [->%elem_of_singleton|Hi]; [done|]. by apply (Ho i u). }
  destruct (relaxall_ok cl u expcost F gdirs s1 (delete u m) B1) as (s2&m2&E2&B2&M2&Hop2&Ht2); [set_solver|done|done|done|done|done| |].
  { intros j k Hj. apply lookup_delete_Some in Hj as [_ Hj]. specialize (Hmin j k Hj). unfold kle in Hmin. cbn in Hmin. lia. }
  exists u, F, h', expcost, s2, m2. rewrite Ex, Ey. split_and!; [done|done|done|done|by rewrite getCost_static|done| |].
  assert (forall i, i ∈ cl -> gof s2 i = gof s i) as Hg2. { intros i Hi. destruct (M2 i (b_closed _ _ _ B1 i Hi)) as (_&_&?); auto. }
  2:{ intros j Hj. by apply (M2 j). }
  split; [done| | |].
  - intros i j c Hi Hvj HE. apply elem_of_union in Hi as Hi'. rewrite (Hg2 i Hi). destruct Hi' as [->%elem_of_singleton|Hi'].
    + unfold E in HE. rewrite (surjective_pairing (cellof u)) in HE. apply edge_dir in HE as (d&M&Hd&Ej&H1&H2&HM&->). by eapply (Ht2 d j).
    + destruct (He i j c Hi' Hvj HE) as [Ha Hg]. destruct (M2 j Ha) as (Ha2&Hg'&_). split; [done|]. change (gof s1 j) with (gof s j) in Hg'. lia.
  - intros i j k Hi Hj. rewrite (Hg2 i Hi). specialize (Hclf i Hi). specialize (Hop2 j k Hj). change (gof s1 i) with (gof s i) in Hclf. lia.
  - destruct Hcap as [Hz|Hz]; [by left|right]. intros i Hi. rewrite (Hg2 i Hi). specialize (Hclf i Hi). change (gof s1 i) with (gof s i) in Hclf. lia.
Qed.

Lemma gloop_ok goal fuel : forall closed s m, linv closed s m -> (Z.to_nat (W * H) < fuel + size closed)%nat ->
  exists s' closed' m', gloop grid obs tc fuel goal closed s = Ok s' /\ linv closed' s' m' /\ (forall j, accof s j = iter -> accof s' j = iter) /\
    (m' = ∅ \/ exists k, getminkeyheap intops (gsOpen s') = Ok k /\ goes_on tc (gof s' goal) k = false).
Proof.
  induction fuel as [|fuel IH]; intros closed s m L Hf.
  - exfalso. assert (size closed <= Z.to_nat (W * H))%nat; [|lia]. rewrite <- (size_set_seq (C := gset nat) 0 (Z.to_nat (W * H))). apply subseteq_size. intros i Hi. apply elem_of_set_seq.
    pose proof (b_closed _ _ _ (l_base _ _ _ L) i Hi) as Ha. destruct (b_acc _ _ _ (l_base _ _ _ L) i Ha) as (Hv&_). unfold valid in Hv. lia.
  - cbn [gloop]. pose proof (rep_empty_cur _ _ (b_rep _ _ _ (l_base _ _ _ L))) as Hem. unfold emptyheap. destruct (cur (gsOpen s) =? 0)%nat eqn:Ec.
    { exists s, closed, m. split; [done|]. split; [done|]. split; [done|]. left. apply Hem. lia. }
    assert (m <> ∅) as Hm by (rewrite Hem; lia).
    destruct (getmin_spec intops intlaws _ _ (b_rep _ _ _ (l_base _ _ _ L)) (b_ord _ _ _ (l_base _ _ _ L)) Hm) as (u'&k&_&Ek&_). rewrite Ek. cbn [hlift obind].
    destruct (goes_on tc (gof s goal) k) eqn:Ego; cbn [negb].
    2:{ exists s, closed, m. split; [done|]. split; [done|]. split; [done|]. right. eauto. }
    destruct (expand_ok closed s m L Hm (gof s goal)) as (u&k'&h'&ec&s'&m'&Ek'&Ed&Hvu&Huc&Eec&Er&L'&Hmn). { intros k' Ek'. rewrite Ek in Ek'. by injection Ek' as <-. }
    rewrite Ed. cbn [hlift obind fst snd]. change (gsW (with_open s h')) with (gsW s). rewrite Eec. cbn [obind]. rewrite Er. cbn [obind].
    destruct (IH _ _ m' L') as (s2&cl2&m2&E2&L2&Hm2&He2); [rewrite size_union, size_singleton by set_solver; lia|]. exists s2, cl2, m2. split_and!; auto.
Qed.

(** What the final state says about every path. *)
Definition largest (s : gsearch) (m : gmap nat Z) (L : Z) : Prop :=
  (m = ∅ /\ L = INFINITECOST) \/ (exists i, m !! i = Some L) /\ forall j k, m !! j = Some k -> L <= k.
Lemma path_cells v p : inblocks W H (cellof src) -> gpath v p -> inblocks W H v /\ 0 <= p.
Proof.
  intros Hs Hp. induction Hp as [|u v c e Hp [IH1 IH2] He]; [done|]. destruct He as (_&Hv&len&cells&M&Hmv&_&(t&_&(dx&dy&_&_&<-)&_)&_&->). split; [done|].
  destruct u as [ux uy]. apply move_dir in Hmv as (d&Hd&_&->&_). pose proof (Hgrid (t.1 * gsDown s0 + dx) (t.2 * gsDown s0 + dy)).
  assert (0 <= dlen (gsDist s0) d); [|nia]. unfold dlen. destruct (_ || _); [lia|]. destruct (d.2); lia.
Qed.
Lemma final_ok closed s m L : linv closed s m -> largest s m L -> valid src -> forall j p, valid j -> gpath (cellof j) p ->
  (j ∈ closed /\ gof s j <= p) \/ L <= p + hh j \/ INFINITECOST <= p.
Proof.
  intros [B He Ho Hc] HL Hvs. pose proof (b_static _ _ _ B) as Hst.
  assert (forall j, valid j -> accof s j = iter -> forall p, gof s j <= p -> (j ∈ closed /\ gof s j <= p) \/ L <= p + hh j \/ INFINITECOST <= p) as Hfin.
  { intros j Hvj Ha p Hp. destruct (b_acc _ _ _ B j Ha) as (_&_&[Hcl|[[k Hk]|Hi]]&_); [by left| |right; right; lia].
    destruct HL as [[-> _]|[_ HL]]; [by rewrite lookup_empty in Hk|]. specialize (HL j k Hk). destruct (b_open _ _ _ B j k Hk) as (_&_&->). right. left. lia. }
  intros j p Hvj Hp. remember (cellof j) as v eqn:Ev. revert j Hvj Ev. induction Hp as [|u v c e Hp IH He']; intros j Hvj Ev.
  - assert (j = src) as ->. { rewrite <- (cellid_cellof s0 Hwf s j Hst), <- Ev. by apply cellid_cellof. } destruct (b_src _ _ _ B) as (Ha&Hg&_). apply Hfin; [done|done|lia].
  - assert (inblocks W H u) as Hbu by apply He'. destruct (cellof_cellid s0 s u Hst Hbu) as [Eu Hvu]. set (i := cellid s u.1 u.2) in *.
    assert (E i j e) as HE by (unfold E; rewrite Eu, <- Ev; done). pose proof (Hcons i j e Hvu Hvj HE).
    assert (0 <= e) as He0. { destruct (path_cells u c) as [_ Hc0]; [by apply inblocks_cellof|done|]. clear -He' Hgrid Hdist. destruct He' as (_&_&len&cells&M&Hmv&_&(t&_&(dx&dy&_&_&<-)&_)&_&->). destruct u as [ux uy]. apply move_dir in Hmv as (d&Hd&_&->&_). pose proof (Hgrid (t.1 * gsDown s0 + dx) (t.2 * gsDown s0 + dy)). assert (0 <= dlen (gsDist s0) d); [|nia]. unfold dlen. destruct (_ || _); [lia|]. destruct (d.2); lia. }
    destruct (IH i Hvu ltac:(done)) as [[Hi Hg]|[HLi|HI]]; [|right; left; lia|right; right; lia].
    destruct (He i j e Hi Hvj HE) as [Ha Hg']. apply Hfin; [done|done|lia].
Qed.
End dij.
