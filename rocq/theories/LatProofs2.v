(** Lemmas for C37 - C44: the tables that PrecomputeActions builds. *)
From Verif Require Import Base NavModel LatModel LatSpec LatProofs.
Local Open Scope Z_scope.

(** The tables of a usable set of primitives. *)
Record cfg_ok (N : Z) (k : nat) (ps : list prim) (c : cfg) : Prop := {
  co_N : cN c = N; co_k : cWidth c = k;
  co_act : forall t i p, 0 <= t < N -> of_angle t ps !! i = Some p -> exists a, act_at c t i = Ok a /\ act_ok a p;
  co_ind : forall t i p a, 0 <= t < N -> of_angle t ps !! i = Some p -> act_at c t i = Ok a -> aInd a = uchar (Z.of_nat i);
  co_pred : forall t, 0 <= t < N -> exists l, preds_at c t = Ok l /\ NoDup l /\
    forall u i, (u, i) ∈ l <-> exists p, of_angle (Z.of_nat u) ps !! i = Some p /\ pEnd p mod N = t;
  co_aff : forall s, s ∈ cAffected c <-> exists p, p ∈ ps /\ s.2 = pStart p /\ (s.1 = (0, 0) \/ s.1 = (- pX p, - pY p) \/ exists o, o ∈ pInter p /\ s.1 = (- o.1, - o.2))
}.

Lemma of_angle_in t ps p : p ∈ of_angle t ps <-> p ∈ ps /\ pStart p = t.
Proof. unfold of_angle. rewrite elem_of_list_filter. tauto. Qed.

Section pre.
Context (N : Z) (k : nat) (ps : list prim) (OKps : prims_ok N k ps).
Definition act_of (t : nat) (i : nat) (p : prim) : action :=
  mkAct (uchar (Z.of_nat i)) (schar (Z.of_nat t)) (schar (pX p)) (schar (pY p)) (schar (pEnd p)) (pCost p) (pInterm p) (pInter p).
Lemma act_of_ok t i p : p ∈ ps -> pStart p = Z.of_nat t -> act_ok (act_of t i p) p.
Proof.
  intros Hp Ht. destruct (po_disp _ _ _ OKps p Hp). pose proof (po_start _ _ _ OKps p Hp). pose proof (po_end _ _ _ OKps p Hp). pose proof (po_N _ _ _ OKps).
  unfold act_ok, act_of; simpl. rewrite !schar_id by lia. rewrite <- Ht. done.
Qed.
Definition targ (p : prim) : nat := Z.to_nat (pEnd p mod N).
Lemma prims_loop_spec t ps' aind T : (forall p, p ∈ ps' -> p ∈ ps) -> (t < Z.to_nat N)%nat -> length T.2 = Z.to_nat N ->
  (exists row, T.1 !! t = Some row /\ (aind + length (of_angle (Z.of_nat t) ps') <= length row)%nat) ->
  exists T', prims_loop N k t ps' aind T = Ok ((aind + length (of_angle (Z.of_nat t) ps'))%nat, T') /\
    length T'.1 = length T.1 /\ length T'.2 = length T.2 /\
    (forall u, u <> t -> T'.1 !! u = T.1 !! u) /\
    (exists row row', T.1 !! t = Some row /\ T'.1 !! t = Some row' /\ length row' = length row /\
       forall i, row' !! i = (if decide (aind <= i < aind + length (of_angle (Z.of_nat t) ps'))%nat
                   then (fun p => Some (act_of t i p)) <$> of_angle (Z.of_nat t) ps' !! (i - aind)%nat else row !! i)) /\
    (forall w q, T.2 !! w = Some q -> exists q', T'.2 !! w = Some (q ++ q') /\ NoDup q' /\
       forall u i, (u, i) ∈ q' <-> u = t /\ (aind <= i)%nat /\ exists p, of_angle (Z.of_nat t) ps' !! (i - aind)%nat = Some p /\ targ p = w).
Proof.
  intros Hin Ht. pose proof (po_N _ _ _ OKps) as HN. revert aind T.
  induction ps' as [|p ps' IH]; intros aind T HT (row & Erow & Hrow).
  - exists T. simpl. rewrite Nat.add_0_r. split_and!; try done.
    + exists row, row. split_and!; try done. intros i. rewrite decide_False by lia. done.
    + intros w q E. exists []. rewrite app_nil_r. split_and!; [done|constructor|]. intros u i. split; [by intros H%elem_of_nil|].
      intros (_ & _ & p & E' & _). unfold of_angle in E'. rewrite filter_nil, lookup_nil in E'. done.
  - assert (Hin' : forall p, p ∈ ps' -> p ∈ ps) by (intros; apply Hin; by right). specialize (IH Hin').
    simpl. unfold of_angle in *. rewrite filter_cons in *. destruct (decide (pStart p = Z.of_nat t)) as [Es|Es].
    2: { destruct (Z.eqb_spec (pStart p) (Z.of_nat t)); [done|]. simpl. apply IH; eauto. }
    destruct (Z.eqb_spec (pStart p) (Z.of_nat t)) as [_|]; [|done]. simpl negb. cbv iota.
    rewrite Erow. simpl length in *. destruct (Nat.leb_spec (length row) aind); [lia|].
    assert (Pin : p ∈ ps) by (apply Hin; left).
    pose proof (po_end _ _ _ OKps p Pin) as HE.
    assert (ET : (if schar (pEnd p) <? 0 then schar (pEnd p) + N else schar (pEnd p)) = pEnd p mod N).
    { rewrite schar_id by lia. destruct (Z.ltb_spec (pEnd p) 0).
      - apply (Z.mod_unique _ _ (-1)); lia.
      - symmetry. apply Z.mod_small; lia. }
    simpl aEnd. rewrite ET. pose proof (Z.mod_pos_bound (pEnd p) N ltac:(lia)) as HB.
    destruct (Z.ltb_spec (pEnd p mod N) 0); [lia|].
    destruct (lookup_lt_is_Some_2 T.2 (Z.to_nat (pEnd p mod N))) as [q Eq]; [lia|]. rewrite Eq.
    fold (targ p) in *. fold (act_of t aind p).
    assert (LR : (t < length T.1)%nat) by (eapply lookup_lt_Some; eauto).
    destruct (IH (S aind) (<[t:=<[aind:=Some (act_of t aind p)]> row]> T.1, <[targ p:=q ++ [(t, aind)]]> T.2)) as (T' & E & L1 & L2 & O & (r0 & r' & Er0 & Er' & Lr' & Hr') & P).
    { simpl. by rewrite insert_length. }
    { exists (<[aind:=Some (act_of t aind p)]> row). simpl. rewrite list_lookup_insert by done. rewrite insert_length. split; [done|]. lia. }
    simpl in *. rewrite list_lookup_insert in Er0 by done. injection Er0 as <-. rewrite insert_length in *.
    exists T'. split_and!.
    + rewrite E. f_equal. f_equal. lia.
    + rewrite L1. apply insert_length.
    + rewrite L2. apply insert_length.
    + intros u Hu. rewrite (O u Hu). by rewrite list_lookup_insert_ne.
    + exists row, r'. split_and!; try done. intros i. rewrite Hr'. destruct (decide (i = aind)) as [->|Hi].
      * rewrite decide_False by lia. rewrite decide_True by lia. rewrite Nat.sub_diag. simpl. by rewrite list_lookup_insert.
      * destruct (decide (aind <= i < aind + S (length (filter (fun p => pStart p = Z.of_nat t) ps')))%nat).
        -- rewrite decide_True by lia. replace (i - aind)%nat with (S (i - S aind)) by lia. done.
        -- rewrite decide_False by lia. by rewrite list_lookup_insert_ne.
    + intros w q0 E0. destruct (decide (w = targ p)) as [->|Hw].
      * rewrite Eq in E0. injection E0 as <-. destruct (P (targ p) (q ++ [(t, aind)])) as (q' & Eq' & ND & Hq').
        { rewrite list_lookup_insert; [done|]. rewrite HT. unfold targ. lia. }
        exists ((t, aind) :: q'). split_and!.
        -- rewrite Eq'. f_equal. by rewrite <- app_assoc.
        -- constructor; [|done]. intros (_ & Hle & _)%Hq'. lia.
        -- intros u i. rewrite elem_of_cons, Hq'. split.
           ++ intros [[= -> ->]|(-> & Hi & p' & Ep' & Tp')].
              ** split_and!; [done|done|]. exists p. by rewrite Nat.sub_diag.
              ** split_and!; [done|lia|]. exists p'. replace (i - aind)%nat with (S (i - S aind)) by lia. done.
           ++ intros (-> & Hi & p' & Ep' & Tp'). destruct (decide (i = aind)) as [->|Hne]; [by left|]. right.
              split_and!; [done|lia|]. exists p'. replace (i - aind)%nat with (S (i - S aind)) in Ep' by lia. done.
      * destruct (P w q0) as (q' & Eq' & ND & Hq').
        { by rewrite list_lookup_insert_ne. }
        exists q'. split_and!; [done|done|]. intros u i. rewrite Hq'. split.
        -- intros (-> & Hi & p' & Ep' & Tp'). split_and!; [done|lia|]. exists p'. replace (i - aind)%nat with (S (i - S aind)) by lia. done.
        -- intros (-> & Hi & p' & Ep' & Tp'). destruct (decide (i = aind)) as [->|Hne].
           { rewrite Nat.sub_diag in Ep'. simpl in Ep'. injection Ep' as <-. congruence. }
           split_and!; [done|lia|]. exists p'. replace (i - aind)%nat with (S (i - S aind)) in Ep' by lia. done.
Qed.
Lemma angles_loop_spec ts maxn T : NoDup ts -> (forall t, t ∈ ts -> (t < Z.to_nat N)%nat) -> length T.1 = Z.to_nat N -> length T.2 = Z.to_nat N ->
  (forall t row, T.1 !! t = Some row -> length row = k) -> (maxn <= k)%nat ->
  exists mx T', angles_loop N k ps ts maxn T = Ok (mx, T') /\ (ts <> [] -> mx = k) /\ (ts = [] -> mx = maxn) /\
    length T'.1 = Z.to_nat N /\ length T'.2 = Z.to_nat N /\
    (forall t row, T'.1 !! t = Some row -> length row = k) /\
    (forall t, t ∉ ts -> T'.1 !! t = T.1 !! t) /\
    (forall t i p, t ∈ ts -> of_angle (Z.of_nat t) ps !! i = Some p -> exists row, T'.1 !! t = Some row /\ row !! i = Some (Some (act_of t i p))) /\
    (forall w q, T.2 !! w = Some q -> exists q', T'.2 !! w = Some (q ++ q') /\ NoDup q' /\
       forall u i, (u, i) ∈ q' <-> u ∈ ts /\ exists p, of_angle (Z.of_nat u) ps !! i = Some p /\ targ p = w).
Proof.
  revert maxn T. induction ts as [|t ts IH]; intros maxn T ND Hts L1 L2 HR Hm.
  - exists maxn, T. simpl. split_and!; try done.
    + intros ? ? ? H. by apply elem_of_nil in H.
    + intros w q E. exists []. rewrite app_nil_r. split_and!; [done|constructor|]. intros u i. split; [by intros H%elem_of_nil|]. intros [H _]. by apply elem_of_nil in H.
  - apply NoDup_cons in ND as [Nt ND]. assert (Ht : (t < Z.to_nat N)%nat) by (apply Hts; left).
    destruct (lookup_lt_is_Some_2 T.1 t) as [row Erow]; [lia|].
    assert (Lk : length (of_angle (Z.of_nat t) ps) = k) by (apply (po_uniform _ _ _ OKps); lia).
    destruct (prims_loop_spec t ps 0 T) as (T1 & E & M1 & M2 & O & (r0 & r' & Er0 & Er' & Lr' & Hr') & P); [done|done|done| |].
    { exists row. split; [done|]. rewrite (HR _ _ Erow). lia. }
    rewrite Erow in Er0. injection Er0 as <-. simpl in E, Hr'. rewrite Lk in E.
    simpl. rewrite E. cbn [obind fst snd].
    destruct (IH (Nat.max maxn k) T1) as (mx & T' & E' & X1 & X2 & K1 & K2 & K3 & K4 & K5 & K6); [done| |lia|lia| |lia|].
    { intros u Hu. apply Hts. by right. }
    { intros u rw Eu. destruct (decide (u = t)) as [->|]; [|rewrite O in Eu by done; eauto]. rewrite Er' in Eu. injection Eu as <-. rewrite Lr'. eauto. }
    exists mx, T'. split_and!; try done.
    + intros _. destruct ts; [rewrite X2 by done; lia|by apply X1].
    + intros u Hu. apply not_elem_of_cons in Hu as [Hu1 Hu2]. rewrite (K4 u Hu2). by apply O.
    + intros u i p [-> |Hu]%elem_of_cons Ep.
      * exists r'. rewrite (K4 t Nt). split; [done|]. rewrite Hr'. assert (i < k)%nat by (rewrite <- Lk; eapply lookup_lt_Some; eauto).
        rewrite decide_True by lia. rewrite Nat.sub_0_r. rewrite Ep. done.
      * by apply K5.
    + intros w q Ew. destruct (P w q Ew) as (q1 & Eq1 & ND1 & H1). destruct (K6 w _ Eq1) as (q2 & Eq2 & ND2 & H2).
      exists (q1 ++ q2). split_and!.
      * rewrite Eq2. by rewrite app_assoc.
      * apply NoDup_app. split_and!; [done| |done]. intros [u i] [-> _]%H1 [Hu _]%H2. done.
      * intros u i. rewrite elem_of_app, H1, H2, elem_of_cons. rewrite Nat.sub_0_r. split.
        -- intros [(-> & _ & ?)|[? ?]]; [split; [by left|done]|split; [by right|done]].
        -- intros [[-> |?] ?]; [left; split_and!; [done|lia|done]|by right].
Qed.
Lemma add_new_in l s x : x ∈ add_new l s <-> x ∈ l \/ x = s.
Proof. unfold add_new. case_decide; [|rewrite elem_of_app, elem_of_list_singleton; done]. split; [tauto|]. intros [?| ->]; done. Qed.
Lemma fold_add_new (f : Z * Z -> Z * Z * Z) cs l x : x ∈ foldl (fun l c => add_new l (f c)) l cs <-> x ∈ l \/ exists c, c ∈ cs /\ x = f c.
Proof.
  revert l. induction cs as [|c cs IH]; intros l; simpl.
  - split; [by left|]. intros [?|(c & H & _)]; [done|]. by apply elem_of_nil in H.
  - rewrite IH, add_new_in. split.
    + intros [[?| ->]|(c' & ? & ?)]; [by left|right; exists c; split; [left|done]|right; exists c'; split; [by right|done]].
    + intros [?|(c' & [-> |?]%elem_of_cons & ?)]; [by left; left|by left; right|right; eauto].
Qed.
Lemma replan_action_in a l x : x ∈ replan_action a l <-> x ∈ l \/ x.2 = aStart a /\ (x.1 = (0, 0) \/ x.1 = (- aDX a, - aDY a) \/ exists o, o ∈ aInter a /\ x.1 = (- o.1, - o.2)).
Proof.
  unfold replan_action. rewrite !add_new_in, (fold_add_new (fun c => (- c.1, - c.2, aStart a))). destruct x as [xy t]; simpl. split.
  - intros [[[?|(c & Hc & [= -> ->])]|[= -> ->]]|[= -> ->]]; [by left|right; split; [done|]; right; right; eauto|right; split; [done|]; by left|right; split; [done|]; by right; left].
  - intros [?|[-> [-> |[-> |(o & Ho & ->)]]]]; [by left; left; left|by left; right|by right|left; left; right; eauto].
Qed.
Lemma replan_all_spec c is l : (forall q, q ∈ is -> exists a, act_at c (Z.of_nat q.1) q.2 = Ok a) ->
  exists l', replan_all c is l = Ok l' /\ forall x, x ∈ l' <-> x ∈ l \/ exists q a, q ∈ is /\ act_at c (Z.of_nat q.1) q.2 = Ok a /\
    x.2 = aStart a /\ (x.1 = (0, 0) \/ x.1 = (- aDX a, - aDY a) \/ exists o, o ∈ aInter a /\ x.1 = (- o.1, - o.2)).
Proof.
  revert l. induction is as [|q is IH]; intros l H; simpl.
  - exists l. split; [done|]. intros x. split; [by left|]. intros [?|(q & a & Hq & _)]; [done|]. by apply elem_of_nil in Hq.
  - destruct (H q) as [a Ea]; [left|]. rewrite Ea. simpl. destruct (IH (replan_action a l)) as (l' & E & Hl'). { intros q' Hq'. apply H. by right. }
    exists l'. split; [done|]. intros x. rewrite Hl', replan_action_in. split.
    + intros [[?|?]|(q' & a' & Hq' & Hr)]; [by left|right; exists q, a; split; [left|done]|right; exists q', a'; split; [by right|done]].
    + intros [?|(q' & a' & [-> |Hq']%elem_of_cons & E' & Hr)]; [by left; left| |right; eauto 10].
      rewrite Ea in E'. injection E' as <-. by left; right.
Qed.
Lemma sum_angles (T : nat) : length (filter (fun p => pStart p < Z.of_nat T) (filter (fun p => 0 <= pStart p) ps)) = sum_list ((fun t => length (of_angle (Z.of_nat t) ps)) <$> seq 0 T).
Proof.
  induction T as [|T IH].
  - simpl. rewrite list_filter_filter. clear. induction ps as [|p l IHl]; [done|]. rewrite filter_cons. case_decide; [lia|done].
  - rewrite seq_S, fmap_app, sum_list_with_app. simpl. rewrite <- IH. clear IH. rewrite Nat.add_0_r. unfold of_angle. clear OKps. induction ps as [|p l IHl]; [done|].
    rewrite !(filter_cons _ p). repeat case_decide; rewrite ?filter_cons; repeat case_decide; simpl; lia.
Qed.
Lemma prims_count : Z.of_nat (length ps) = N * Z.of_nat k.
Proof.
  pose proof (po_N _ _ _ OKps) as HN. pose proof (sum_angles (Z.to_nat N)) as S.
  assert (E1 : filter (fun p => pStart p < Z.of_nat (Z.to_nat N)) (filter (fun p => 0 <= pStart p) ps) = ps).
  { assert (A : forall l : list prim, (forall p, p ∈ l -> 0 <= pStart p < N) -> filter (fun p => pStart p < Z.of_nat (Z.to_nat N)) (filter (fun p => 0 <= pStart p) l) = l).
    { induction l as [|p l IHl]; [done|]. intros H. pose proof (H p ltac:(left)). rewrite filter_cons. rewrite decide_True by lia. rewrite filter_cons. rewrite decide_True by lia. f_equal. apply IHl. intros q Hq. apply H. by right. }
    apply A. apply (po_start _ _ _ OKps). }
  rewrite E1 in S. rewrite S.
  assert (E2 : forall n m, (m + n <= Z.to_nat N)%nat -> sum_list ((fun t => length (of_angle (Z.of_nat t) ps)) <$> seq m n) = (n * k)%nat).
  { induction n as [|n IH]; [done|]. intros m Hm. simpl. rewrite IH by lia. rewrite (po_uniform _ _ _ OKps) by lia. lia. }
  rewrite E2 by lia. lia.
Qed.
Lemma precompute_ok W H nonuni obs insc circ poly :
  exists c, precompute W H N nonuni obs insc circ poly ps = Ok c /\ cfg_ok N k ps c /\
    cW c = W /\ cH c = H /\ cObs c = obs /\ cInsc c = insc /\ cCirc c = circ /\ cPoly c = poly.
Proof.
  pose proof (po_N _ _ _ OKps) as HN. pose proof prims_count as HC. unfold precompute.
  destruct (Z.eqb_spec N 0); [lia|]. destruct (Z.ltb_spec N 0); [lia|].
  rewrite HC. rewrite (Z.mul_comm N), Z.mod_mul by lia. rewrite Z.eqb_refl. simpl negb. cbv iota. rewrite Z.div_mul by lia. rewrite Nat2Z.id.
  destruct (angles_loop_spec (seq 0 (Z.to_nat N)) 0 (replicate (Z.to_nat N) (replicate k None), replicate (Z.to_nat N) [])) as (mx & T & E & X & _ & L1 & L2 & K3 & _ & K5 & K6); try done.
  { apply NoDup_seq. }
  { intros t. rewrite elem_of_seq. lia. }
  { simpl. by rewrite replicate_length. }
  { simpl. by rewrite replicate_length. }
  { intros t row Hr. simpl in Hr. apply lookup_replicate in Hr as [-> _]. by rewrite replicate_length. }
  { lia. }
  rewrite E. cbn [obind]. assert (Emx : mx = k). { apply X. destruct (Z.to_nat N) eqn:?; [lia|done]. }
  cbn [fst snd]. rewrite Emx. rewrite (Z.mul_comm _ N), Z.eqb_refl. cbn [negb].
  assert (AT : forall aff t i p, 0 <= t < N -> of_angle t ps !! i = Some p -> act_at (mkCfg W H N nonuni obs insc circ poly T.1 k T.2 aff) t i = Ok (act_of (Z.to_nat t) i p)).
  { intros aff t i p Ht Ep. destruct (K5 (Z.to_nat t) i p) as (row & Er & Ei). { rewrite elem_of_seq. lia. } { by rewrite Z2Nat.id by lia. }
    unfold act_at. destruct (Z.ltb_spec t 0); [lia|]. cbn [cActs]. by rewrite Er, Ei. }
  edestruct replan_all_spec as (aff & EA & HA).
  2: { rewrite EA. cbn [obind]. eexists. split; [done|]. split; [|done]. split; try done.
    - intros t i p Ht Ep. eexists. split; [by apply AT|]. apply act_of_ok.
      + apply elem_of_list_lookup_2 in Ep. by apply of_angle_in in Ep as [? _].
      + apply elem_of_list_lookup_2 in Ep. apply of_angle_in in Ep as [? ->]. lia.
    - intros t i p a Ht Ep Ea. rewrite (AT _ t i p Ht Ep) in Ea. injection Ea as <-. done.
    - intros t Ht. destruct (K6 (Z.to_nat t) []) as (q & Eq & ND & Hq). { simpl. apply lookup_replicate. split; [done|lia]. }
      exists q. unfold preds_at. destruct (Z.ltb_spec t 0); [lia|]. cbn [cPreds]. rewrite Eq. split_and!; [done|done|].
      intros u i. rewrite Hq. unfold targ. split.
      + intros (_ & p & Ep & Tp). exists p. split; [done|]. pose proof (Z.mod_pos_bound (pEnd p) N ltac:(lia)). lia.
      + intros (p & Ep & Tp). split; [|exists p; split; [done|lia]]. rewrite elem_of_seq. apply elem_of_list_lookup_2 in Ep. apply of_angle_in in Ep as [Pi Es].
        pose proof (po_start _ _ _ OKps p Pi). lia.
    - intros s. cbn [cAffected]. rewrite HA. split.
      + intros [Hs|(q & a & Hq & Ea & Hs)]; [by apply elem_of_nil in Hs|].
        apply elem_of_list_bind in Hq as (t & Hq & Ht). apply elem_of_list_fmap in Hq as (i & -> & Hi). rewrite elem_of_seq in Ht, Hi. cbn [fst snd] in Ea.
        destruct (lookup_lt_is_Some_2 (of_angle (Z.of_nat t) ps) i) as [p Ep]. { rewrite (po_uniform _ _ _ OKps) by lia. lia. }
        rewrite (AT _ _ _ p) in Ea; [|lia|done]. injection Ea as <-. rewrite Nat2Z.id in Hs.
        apply elem_of_list_lookup_2 in Ep. apply of_angle_in in Ep as [Pi Es]. destruct (act_of_ok t i p Pi Es) as (A1 & A2 & A3 & _ & _ & _ & A7).
        rewrite A1, A2, A3, A7 in Hs. exists p. done.
      + intros (p & Pi & Hs). right.
        assert (Ep : p ∈ of_angle (pStart p) ps) by (by apply of_angle_in). apply elem_of_list_lookup in Ep as [i Ep].
        pose proof (po_start _ _ _ OKps p Pi) as HS. exists (Z.to_nat (pStart p), i), (act_of (Z.to_nat (pStart p)) i p). split_and!.
        * apply elem_of_list_bind. exists (Z.to_nat (pStart p)). rewrite elem_of_list_fmap, elem_of_seq. split; [|lia]. exists i. split; [done|].
          rewrite elem_of_seq. apply lookup_lt_Some in Ep. rewrite (po_uniform _ _ _ OKps) in Ep by lia. lia.
        * cbn [fst snd]. rewrite Z2Nat.id by lia. apply AT; [lia|done].
        * destruct (act_of_ok (Z.to_nat (pStart p)) i p Pi ltac:(lia)) as (-> & _). by destruct Hs.
        * destruct (act_of_ok (Z.to_nat (pStart p)) i p Pi ltac:(lia)) as (_ & -> & -> & _ & _ & _ & ->). by destruct Hs. }
  intros q Hq. apply elem_of_list_bind in Hq as (t & Hq & Ht). apply elem_of_list_fmap in Hq as (i & -> & Hi). rewrite elem_of_seq in Ht, Hi.
  destruct (lookup_lt_is_Some_2 (of_angle (Z.of_nat t) ps) i) as [p Ep]. { rewrite (po_uniform _ _ _ OKps) by lia. lia. }
  cbn [fst snd]. eexists. apply (AT _ _ _ p); [lia|done].
Qed.
End pre.
