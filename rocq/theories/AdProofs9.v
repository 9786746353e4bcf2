(** AD*: the other calls, and all reachable worlds. *)
From Coq Require Import ZifyBool ZifyNat QArith Qround Lqa.
From Verif Require Import Base KeyModel HeapModel HeapProofs ListModel ListProofs ListSpec AngleModel AngleProofs AraModel AraSpec AraProofs AraPath AraProofs3 AraProofs4 AraProofs6 AdModel AdSpec AdAbs AdProofs AdProofs2 AdProofs3 AdPath AdProofs4 AdProofs5 AdProofs6 AdProofs7 AdProofs8.
Local Open Scope Z_scope.

Lemma dlift_inv {X A} x (r : outcome X A) a : dlift x r = Ok a -> r = Ok a.
Proof. destruct r; cbn; congruence. Qed.

Section ops.
Context (fwd abs : bool) (E : Q).
Notation pinv := (dpinv fwd abs E).
Lemma dpinv_get G e p id c' : pinv G e p -> GetState e (aFwd p) (aCall p) (bool_decide (is_Some (aGoal p))) (aC p) id = Ok c' ->
  pinv G e (with_core p c').
Proof.
  intros P HE. rewrite (p_fwd _ _ _ _ _ _ P) in HE. destruct (GetState_spec _ _ _ _ _ _ _ HE) as (Hid&_&Hpr&Hc).
  destruct Hc as [->|(Hnone&->)]; [by destruct p|].
  assert (~ current (aCall p) (aC p) id) as Hnc by (intros (a&Ha&_); congruence).
  pose proof P as [Pfwd PE Pge Psees (m&z&Rm&Om&Lz&Hmz) Pdom Pcnt Pst Pgo Peps Ppar Phv Psearch].
  assert (m !! id = None) as Hm by (destruct (m !! id) eqn:Em; [|done]; destruct (Hmz id) as [? ?]; [left; eauto|congruence]).
  assert (~ id ∈ z.*2) as Hz by (intros Hz; destruct (Hmz id) as [? ?]; [by right|congruence]).
  assert (forall s a, cSt (ReInitializeSearchStateInfo e fwd (aCall p) (bool_decide (is_Some (aGoal p))) (aC p) id) !! s = Some a ->
    (s < eSize e)%nat /\ 0 <= sCall a <= aCall p) as Hdom.
  { intros s a. cbn [ReInitializeSearchStateInfo cSt]. destruct (decide (s = id)) as [->|?].
    + rewrite lookup_insert. intros [= <-]. cbn. split; [done|lia].
    + rewrite lookup_insert_ne by done. apply Pdom. }
  split; wcbn; try (intros; auto; fail).
  - exists m, z. split_and!; cbn [ReInitializeSearchStateInfo cOpen cInc]; [by apply idx_rep|done|by apply elem_lrep|auto].
  - intros Hr Hg s a. cbn [ReInitializeSearchStateInfo cSt]. destruct (decide (s = id)) as [->|?].
    + rewrite lookup_insert. intros [= <-]. cbn. rewrite bool_decide_eq_true_2; [done|]. by destruct (aGoal p); eauto.
    + rewrite lookup_insert_ne by done. by apply Phv.
  - intros Hr. destruct (Psearch Hr) as (s&g&m'&z'&Es&Eg&Q). exists s, g, m', z'. split; [done|]. split; [done|].
    rewrite Eg in *. rewrite bool_decide_eq_true_2 in * by eauto.
    pose proof (fun s => reinit_lk e fwd (aCall p) (aC p) id s Hnc) as HL.
    pose proof (q_dat _ _ _ _ _ _ _ _ _ _ Q) as D.
    eapply (sst_sim fwd abs E G e e s g p); wcbn; try done.
    + cbn [ReInitializeSearchStateInfo cOpen]. apply idx_rep; [apply D|]. 
      destruct (m' !! id) eqn:Em; [|done]. exfalso. apply Hnc, D. left; eauto.
    + cbn [ReInitializeSearchStateInfo cInc]. apply elem_lrep; [apply D|]. intros Hx. apply Hnc, D. by right.
    + intros u. rewrite HL. done.
    + intros u (a&Ha&Hc). exists a. cbn [ReInitializeSearchStateInfo cSt]. rewrite lookup_insert_ne; [done|congruence].
    + intros Hv. split; [done|]. intros u _. by rewrite HL.
    + by right.
Qed.

Lemma dSetGoal_rest e p id p' : ad_SetSearchGoalState e p id = Ok p' ->
  aFwd p' = aFwd p /\ aInit p' = aInit p /\ aFinal p' = aFinal p /\ aDec p' = aDec p /\ (aWrap p' = false -> aWrap p = false) /\
  aGoal p' = Some id /\ aStart p' = aStart p /\ aReinit p' = aReinit p /\ (aIter p + 1 < 65536 -> aWrap p' = aWrap p).
Proof.
  unfold ad_SetSearchGoalState. case_bool_decide; [by intros [= <-]|]. intros HE. apply obind_ok in HE as (c&_&[= <-]). wcbn. split_and!; try done.
  - intros Hw. by apply orb_false_iff in Hw as [? _].
  - intros Hi. destruct (aIter p + 1 >=? 65536) eqn:Ew; [lia|]. apply orb_false_r.
Qed.
Lemma dSetStart_rest e p id p' : ad_SetSearchStartState e p id = Ok p' ->
  aFwd p' = aFwd p /\ aInit p' = aInit p /\ aFinal p' = aFinal p /\ aDec p' = aDec p /\ aWrap p' = aWrap p /\ aGoal p' = aGoal p /\ aStart p' = Some id /\
  (aReinit p = true -> aReinit p' = true).
Proof.
  unfold ad_SetSearchStartState. intros HE. apply obind_ok in HE as (c&_&HE). wcbn. case_bool_decide; injection HE as <-; wcbn; done.
Qed.
Lemma dpinv_SetGoal G e e' p id p' : pinv G e p -> good_env fwd E G e' -> eSize e' = eSize e -> ad_SetSearchGoalState e' p id = Ok p' ->
  dsees fwd abs G e' (aStart p') (aGoal p') -> (aGoal p' <> aGoal p \/ forall s, heur fwd e' s = heur fwd e s) ->
  (abs = true -> aGoal p' = aGoal p \/ aReinit p = true) -> aWrap p' = false -> pinv G e' p'.
Proof.
  intros P Hge Hsz. unfold ad_SetSearchGoalState. case_bool_decide as Hid.
  - intros [= <-] Hse [?|Hh] _ _; [done|]. by eapply dpinv_env.
  - intros HE. apply obind_ok in HE as (c&Ec&[= <-]). wcbn. intros Hse _ Habs Hw. apply orb_false_iff in Hw as [Hw0 Hw].
    assert (aIter p + 1 < 65536) as Hi by lia. clear Hw.
    assert (abs = true -> aReinit p = true) as Habs'. { intros Ha. destruct (Habs Ha); [congruence|done]. } clear Habs.
    pose proof (p_fwd _ _ _ _ _ _ P) as Pfwd.
    apply dlift_inv in Ec. rewrite Pfwd in Ec. destruct (GetState_spec _ _ _ _ _ _ _ Ec) as (Hlt&Hpres&Hpr&Hc).
    assert (exists c0, GetState e (aFwd p) (aCall p) (bool_decide (is_Some (aGoal p))) (aC p) id = Ok c0 /\ cOpen c0 = cOpen c /\ cInc c0 = cInc c /\
      (forall call s, same_fields fwd (lk e fwd call c0 s) (lk e' fwd call c s)) /\
      (forall s a, cSt c !! s = Some a -> exists a0, cSt c0 !! s = Some a0 /\ sCall a = sCall a0) /\
      (forall s a, cSt c0 !! s = Some a -> exists a0, cSt c !! s = Some a0 /\ sCall a = sCall a0)) as (c0&E0&Ho&Hi0&Hf&Hd&Hd').
    { unfold GetState. rewrite <- Hsz. destruct (eSize e' <=? id)%nat eqn:El; [lia|]. destruct Hc as [->|(Hn&->)].
      - destruct Hpres as [a Ha]. rewrite Ha. exists (aC p). split_and!; try done; [intros; apply env_fields|eauto|eauto].
      - rewrite Hn. eexists. split; [reflexivity|]. rewrite Pfwd. split_and!; try done.
        + intros call s. unfold lk. cbn [ReInitializeSearchStateInfo cSt]. destruct (decide (s = id)) as [->|?].
          * rewrite !lookup_insert. cbn. destruct (aCall p =? call), fwd; done.
          * rewrite !lookup_insert_ne by done. destruct (cSt (aC p) !! s) as [a|]; [destruct (sCall a =? call)|]; done.
        + intros s a. cbn [ReInitializeSearchStateInfo cSt]. destruct (decide (s = id)) as [->|?].
          * rewrite !lookup_insert. intros [= <-]. eauto.
          * rewrite !lookup_insert_ne by done. eauto.
        + intros s a. cbn [ReInitializeSearchStateInfo cSt]. destruct (decide (s = id)) as [->|?].
          * rewrite !lookup_insert. intros [= <-]. eauto.
          * rewrite !lookup_insert_ne by done. eauto. }
    pose proof (dpinv_get G e p id c0 P E0) as P0.
    destruct P0 as [Qfwd QE Qge Qsees (m&z&Rm&Om&Lz&Hmz) Qdom Qcnt Qst Qgo Qeps Qpar Qhv Qsearch]. wcbn.
    assert (u16 (aIter p + 1) = aIter p + 1) as Eu by (unfold u16; apply Z.mod_small; lia).
    split; wcbn; rewrite ?Eu; try done.
    + exists m, z. rewrite <- Ho, <- Hi0. split_and!; try done. intros s Hs. destruct (Hmz s Hs) as [a Ha]. destruct (Hd' s a Ha) as (?&?&_). eauto.
    + intros s a Ha. destruct (Hd s a Ha) as (a0&Ha0&->). rewrite Hsz. eauto.
    + lia.
    + intros s Hs. destruct (Qst s Hs) as [a Ha]. destruct (Hd' s a Ha) as (?&?&_). eauto.
    + by intros s [= <-].
    + apply Qpar.
    + intros Hr. destruct (Qsearch Hr) as (s&g&m'&z'&Es&Eg&Q). exists s, id, m', z'. split; [done|]. split; [done|].
      pose proof (q_dat _ _ _ _ _ _ _ _ _ _ Q) as D. wcbn.
      assert (sst fwd abs E G e' s g (with_reeval (with_sat (with_core p c) INFQ) true) m' z') as Q1.
      { eapply (sst_sim fwd abs E G e e' s g (with_core p c0)); wcbn; rewrite <- ?Ho, <- ?Hi0; try done; try apply D.
        - intros u a Ha. destruct (Hd u a Ha) as (a0&Ha0&->). rewrite Hsz. eauto.
        - intros u (a&Ha&Hcu). destruct (Hd' u a Ha) as (a0&Ha0&?). exists a0. split; [done|congruence].
        - by left. }
      apply (sst_bump fwd abs E G e' s g id _ _ m' z' Q1); wcbn; try done; [lia|by left| |by left].
      intros Ha. specialize (Habs' Ha). congruence.
Qed.

Lemma dpinv_SetStart G e e' p id p' : pinv G e p -> good_env fwd E G e' -> eSize e' = eSize e -> ad_SetSearchStartState e' p id = Ok p' ->
  dsees fwd abs G e' (aStart p') (aGoal p') -> (aGoal p' <> aGoal p \/ forall s, heur fwd e' s = heur fwd e s) -> pinv G e' p'.
Proof.
  intros P Hge Hsz HE Hse Hh. destruct (dSetStart_rest _ _ _ _ HE) as (_&_&_&_&_&Hg&Hs&_). rewrite Hg, Hs in *. destruct Hh as [?|Hh]; [done|].
  unfold ad_SetSearchStartState in HE. apply obind_ok in HE as (c&Ec&HE).
  apply dlift_inv in Ec as Ec'. clear Ec. wcbn.
  destruct (decide (aStart p = Some id)) as [Hid|Hid];
    [rewrite (bool_decide_eq_true_2 _ Hid) in HE|rewrite (bool_decide_eq_false_2 _ Hid) in HE]; injection HE as <-.
  - apply dpinv_get with (id := id); [|done]. eapply dpinv_env; try done. by rewrite Hid.
  - set (p0 := with_start (with_reinit p true) None).
    assert (forall e'' r, dsees fwd abs G e'' r (aGoal p) -> dsees fwd abs G e'' None (aGoal p)) as Hds.
    { intros e'' r S. destruct S. split; try done. }
    assert (pinv G e p0) as P0. { destruct P. split; unfold p0; wcbn; try done. by eapply Hds. }
    assert (pinv G e' p0) as P1. { eapply dpinv_env; [exact P0|done|done|done|]. unfold p0; wcbn. by eapply Hds. }
    assert (pinv G e' (with_core p0 c)) as P2. { apply dpinv_get with (id := id); [done|]. unfold p0; wcbn. done. }
    assert (is_Some (cSt c !! id)) as Hpres.
    { rewrite (p_fwd _ _ _ _ _ _ P) in Ec'. by destruct (GetState_spec _ _ _ _ _ _ _ Ec') as (_&?&_). }
    destruct P2. unfold p0 in *. wcbn. split; wcbn; try done. by intros s [= <-].
Qed.
Lemma dpinv_scratch G e p : pinv G e p -> pinv G e (ad_force p).
Proof. intros P. unfold ad_force. destruct P. split; wcbn; done. Qed.
Lemma dpinv_params G e p q : pinv G e p -> good_params1 E q -> pinv G e (set_params p q).
Proof.
  intros P (?&?&?). unfold set_params. destruct P. split; wcbn; try done. intros Hr. destruct (p_search Hr) as (s&g&m&z&Es&Eg&Q).
  exists s, g, m, z. split; [done|]. split; [done|]. destruct Q. split; wcbn; done.
Qed.
Lemma dpinv_blank G e first i d f : (10 <= E < INFQ)%Q -> good_env fwd E G e -> dsees fwd abs G e None None ->
  (1 <= i <= E /\ 1 <= f <= E /\ 0 <= d)%Q -> pinv G e (ad_blank fwd first i d f).
Proof.
  intros HE Hge Hse Hp. assert (0 < HEAPSIZE_INIT)%Z as Hh by done. destruct (new_heap_rep (K:=ckey) ckeyops HEAPSIZE_INIT Hh) as [R O].
  split; try done; try (by cbn).
  - exists ∅, []. split_and!; [apply R|apply O|apply new_list_lrep|]. intros s [[? [=]]|Hs]. by apply elem_of_nil in Hs.
  - apply Hp.
Qed.
End ops.

Section reach.
Context (fwd abs : bool) (E : Q).
Notation pinv := (dpinv fwd abs E).
Definition duinv (p : ara) : Prop := aFwd p = fwd /\ (10 <= E < INFQ)%Q /\ (1 <= aInit p <= E /\ 1 <= aFinal p <= E /\ 0 <= aDec p)%Q.
Definition dsame (p p' : ara) : Prop := aFwd p' = aFwd p /\ aInit p' = aInit p /\ aFinal p' = aFinal p /\ aDec p' = aDec p /\ (aWrap p' = false -> aWrap p = false).
Lemma dset_goal_rest e p id p' : ad_set_goal e p id = Ok p' -> dsame p p'.
Proof.
  unfold ad_set_goal, dsame. destruct (aFwd p) eqn:Hf; intros HE; [apply dSetGoal_rest in HE|apply dSetStart_rest in HE];
    destruct HE as (?&?&?&?&?&_); split_and!; congruence || done.
Qed.
Lemma dset_start_rest e p id p' : ad_set_start e p id = Ok p' -> dsame p p'.
Proof.
  unfold ad_set_start, dsame. destruct (aFwd p) eqn:Hf; intros HE; [apply dSetStart_rest in HE|apply dSetGoal_rest in HE];
    destruct HE as (?&?&?&?&?&_); split_and!; congruence || done.
Qed.
Lemma dcosts_rest e p l p' : ad_costs_changed e p l = Ok p' -> dsame p p' /\ (aWrap p' = false -> aReinit p = false -> aIter p <> 0 -> aIter p + 1 < 65536).
Proof.
  destruct (decide (aReinit p || (aIter p =? 0) = true)) as [Hc|Hc].
  - unfold ad_costs_changed. wcbn. rewrite Hc. intros [= <-]. unfold dsame. wcbn. split; [done|]. intros _ Hr Hi. rewrite Hr in Hc. cbn in Hc. lia.
  - assert (aReinit p = false /\ aIter p <> 0) as [Hr Hi] by (destruct (aReinit p), (aIter p =? 0) eqn:E0; cbn in Hc; try done; split; [done|lia]).
    rewrite (costs_eq e p l Hr Hi). intros HE. apply obind_ok in HE as (r&_&[= <-]).
    destruct (cpre_rest e (with_reeval p true) l) as (A1&A2&A3&A4&A5&A6&A7&A8&A9&A10&A11&A12&A13&A14&A15&A16).
    destruct (cpost_rest (cpre e (with_reeval p true) l) r) as (B1&B2&B3&B4&B5&B6&B7&B8&B9&B10&B11&B12&B13&B14&B15&B16).
    unfold dsame. rewrite B6, B8, B9, B10, B15, A6, A8, A9, A10, A15. wcbn. split.
    + split_and!; try done. intros Hw. by apply orb_false_iff in Hw as [? _].
    + intros Hw _ _. apply orb_false_iff in Hw as [_ ?]. lia.
Qed.
Lemma dreach_uinv w : dreach fwd abs E w -> duinv (wP w).
Proof.
  induction 1 as [G e ? ? HE|G e e' p id p' _ IH _ _ HE _ _|G e e' p id p' _ IH _ _ HE _ _|G e G' e' p l p' _ IH _ _ _ _ HE _|G e p _ IH|
    G e G' e' p p' _ IH _ _ HE|G e p q _ IH Hq|G e p fuel clk r p' _ IH HE]; cbn [wP] in *; unfold duinv in *.
  - split; [done|]. split; [done|]. cbn. lra.
  - destruct (dset_goal_rest _ _ _ _ HE) as (->&->&->&->&_). done.
  - destruct (dset_start_rest _ _ _ _ HE) as (->&->&->&->&_). done.
  - destruct (dcosts_rest _ _ _ _ HE) as ((->&->&->&->&_)&_). done.
  - done.
  - unfold ad_force_free in HE. apply obind_ok in HE as (p1&E1&HE).
    assert (aFwd p1 = aFwd p /\ aInit p1 = aInit p /\ aFinal p1 = aFinal p /\ aDec p1 = aDec p) as (A1&A2&A3&A4).
    { destruct ((if aFwd p then (aStart p, aGoal p) else (aGoal p, aStart p)).1); [|by injection E1 as <-].
      apply dset_start_rest in E1 as (->&->&->&->&_). done. }
    assert (aFwd p' = aFwd p1 /\ aInit p' = aInit p1 /\ aFinal p' = aFinal p1 /\ aDec p' = aDec p1) as (B1&B2&B3&B4).
    { destruct ((if aFwd p then (aStart p, aGoal p) else (aGoal p, aStart p)).2); [|by injection HE as <-].
      apply dset_goal_rest in HE as (->&->&->&->&_). done. }
    rewrite B1, B2, B3, B4, A1, A2, A3, A4. done.
  - unfold set_params. wcbn. destruct IH as (?&?&_). done.
  - destruct r as [[b l] co]. destruct (Search_rest _ _ _ _ _ _ HE) as (_&_&->&->&->&->&_). done.
Qed.

Lemma dpinv_free G' e' p p' : duinv p -> good_env fwd E G' e' -> dsees fwd abs G' e' (aStart p) (aGoal p) ->
  ad_force_free e' p = Ok p' -> pinv G' e' p'.
Proof.
  intros (Hf&HE&Hpar) Hge Hse HF. 
  set (e0 := if fwd then mkEnv (eSize e') G' (ePreds e') (eGoalH e') (eStartH e') else mkEnv (eSize e') (eSuccs e') G' (eGoalH e') (eStartH e')).
  assert (forall s, heur fwd e0 s = heur fwd e' s) as Hh by (intros s; unfold heur, e0; by destruct fwd).
  assert (eSize e0 = eSize e') as Hsz by (unfold e0; by destruct fwd).
  assert (good_env fwd E G' e0) as Hge0. { destruct Hge. split; try setoid_rewrite Hh; rewrite ?Hsz; done. }
  assert (forall r g, (r = None \/ r = aStart p) -> (g = None \/ g = aGoal p) -> dsees fwd abs G' e0 r g) as Hse0.
  { intros r g Hr Hg. destruct Hse. split.
    - intros s _. unfold nbrs, e0. by destruct fwd.
    - intros u Hu t q w Ht. destruct Hr as [-> | ->]; [done|]. rewrite <- (ds_prev u Hu t q w Ht). unfold nbrs, e0. by destruct fwd.
    - rewrite Hsz. done.
    - intros s Hs. rewrite Hh. destruct Hg as [-> | ->]; [done|auto].
    - intros s t w. rewrite !Hh. auto. }
  assert (ad_force_free e0 p = Ok p') as HF0. { unfold e0. destruct fwd; exact HF. } clear HF. clearbody e0.
  unfold ad_force_free in HF0. rewrite Hf in HF0.
  pose proof (dpinv_blank fwd abs E G' e0 (aFirst p) (aInit p) (aDec p) (aFinal p) HE Hge0 (Hse0 None None ltac:(auto) ltac:(auto)) Hpar) as P0.
  set (p0 := ad_blank fwd (aFirst p) (aInit p) (aDec p) (aFinal p)) in *.
  assert (aGoal p0 = None /\ aStart p0 = None /\ aFwd p0 = fwd /\ aReinit p0 = true /\ aIter p0 = 0 /\ aWrap p0 = false) as (Hg0&Hs0&Hf0&Hr0&Hi0&Hw0) by done. clearbody p0.
  assert (pinv G' e0 p' /\ aGoal p' = aGoal p /\ aStart p' = aStart p) as (P'&Hg'&Hs').
  2:{ eapply dpinv_env; [exact P'|done|done| |by rewrite Hg', Hs']. intros s. by rewrite Hh. }
  apply obind_ok in HF0 as (p1&E1&E2). destruct fwd eqn:Efw; cbn [fst snd] in *.
  - assert (dpinv true abs E G' e0 p1 /\ aGoal p1 = None /\ aFwd p1 = true /\ aStart p1 = aStart p /\ aReinit p1 = true /\ aIter p1 = 0 /\ aWrap p1 = false)
      as (P1&Hg1&Hf1&Hs1&Hr1&Hi1&Hw1).
    { destruct (aStart p) as [s|] eqn:Esp; [|injection E1 as <-; split_and!; done]. unfold ad_set_start in E1. rewrite Hf0 in E1.
      assert (aIter p1 = aIter p0) as Hit.
      { unfold ad_SetSearchStartState in E1. apply obind_ok in E1 as (c&_&HE1). wcbn. case_bool_decide; injection HE1 as <-; wcbn; done. }
      destruct (dSetStart_rest _ _ _ _ E1) as (F1&_&_&_&F3&F2&F4&F5).
      split; [|split_and!; try congruence; auto].
      apply (dpinv_SetStart true abs E G' e0 e0 p0 s p1 P0 Hge0 eq_refl E1); [|by right]. rewrite F2, F4, Hg0. apply Hse0; auto. }
    destruct (aGoal p) as [g|] eqn:Egp; [|by injection E2 as <-]. unfold ad_set_goal in E2. rewrite Hf1 in E2.
    destruct (dSetGoal_rest _ _ _ _ E2) as (_&_&_&_&_&F2&F4&_&F6).
    split; [|split; congruence].
    apply (dpinv_SetGoal true abs E G' e0 e0 p1 g p' P1 Hge0 eq_refl E2); [rewrite F2, F4, Hs1; apply Hse0; auto|by right|by right|].
    rewrite F6, Hw1; [done|lia].
  - assert (dpinv false abs E G' e0 p1 /\ aGoal p1 = aGoal p /\ aFwd p1 = false /\ aStart p1 = None) as (P1&Hg1&Hf1&Hs1).
    { destruct (aGoal p) as [s|] eqn:Egp; [|injection E1 as <-; split_and!; done]. unfold ad_set_start in E1. rewrite Hf0 in E1.
      destruct (dSetGoal_rest _ _ _ _ E1) as (F1&_&_&_&_&F2&F4&_&F6).
      split; [|split_and!; congruence].
      apply (dpinv_SetGoal false abs E G' e0 e0 p0 s p1 P0 Hge0 eq_refl E1); [rewrite F2, F4, Hs0; apply Hse0; auto|by right|by right|].
      rewrite F6, Hw0; [done|lia]. }
    destruct (aStart p) as [g|] eqn:Esp; [|by injection E2 as <-]. unfold ad_set_goal in E2. rewrite Hf1 in E2.
    destruct (dSetStart_rest _ _ _ _ E2) as (_&_&_&_&_&F2&F4&_).
    split; [|split; congruence].
    apply (dpinv_SetStart false abs E G' e0 e0 p1 g p' P1 Hge0 eq_refl E2); [rewrite F2, F4, Hg1; apply Hse0; auto|by right].
Qed.

(** The invariant of all worlds in which no 16-bit counter has overflowed. *)
Theorem dreach_pinv w : dreach fwd abs E w -> aWrap (wP w) = false -> pinv (wG w) (wE w) (wP w).
Proof.
  induction 1 as [G e ? ? HE|G e e' p id p' R IH Hge Hsz HE Hse Hh Ha|G e e' p id p' R IH Hge Hsz HE Hse Hh Ha|G e G' e' p l p' R IH ? ? ? ? HE ?|G e p R IH|
    G e G' e' p p' R IH ? ? HE|G e p q R IH Hq|G e p fuel clk r p' R IH HE]; cbn [wP wG wE] in *; intros Hw.
  - apply dpinv_blank; try done. lra.
  - destruct (dset_goal_rest _ _ _ _ HE) as (_&_&_&_&Ew). specialize (IH (Ew Hw)).
    unfold ad_set_goal in HE. destruct (aFwd p); [by eapply dpinv_SetGoal|by eapply dpinv_SetStart].
  - destruct (dset_start_rest _ _ _ _ HE) as (_&_&_&_&Ew). specialize (IH (Ew Hw)).
    unfold ad_set_start in HE. destruct (aFwd p); [by eapply dpinv_SetStart|by eapply dpinv_SetGoal].
  - destruct (dcosts_rest _ _ _ _ HE) as ((_&_&_&_&Ew)&Hi). specialize (IH (Ew Hw)).
    assert (aIter p + 1 < 65536 \/ aReinit p = true \/ aIter p = 0) as [Hit|Hz].
    { destruct (aReinit p) eqn:Er; [auto|]. destruct (decide (aIter p = 0)); [auto|]. left. by apply Hi. }
    + destruct (costs_spec fwd abs E G e G' e' p l IH) as (p''&E'&_&HP); try done. rewrite HE in E'. injection E' as <-. by apply HP.
    + destruct (decide (aIter p = 0)) as [Hz0|Hz0].
      * destruct (costs_spec fwd abs E G e G' e' p l IH) as (p''&E'&_&HP); try done; [lia|]. rewrite HE in E'. injection E' as <-. by apply HP.
      * destruct Hz as [Hz|?]; [|done]. unfold ad_costs_changed in HE. wcbn. rewrite Hz in HE. cbn [orb] in HE. injection HE as <-.
        destruct IH. split; wcbn; try done; [|congruence]. intros s a Hsa. destruct (p_dom s a Hsa). split; [lia|done].
  - apply dpinv_scratch. by apply IH.
  - eapply dpinv_free; [apply (dreach_uinv _ R)|done|done|done].
  - apply dpinv_params; [by apply IH|done].
  - destruct r as [[b l] co]. destruct (Search_rest _ _ _ _ _ _ HE) as (_&_&_&_&_&_&W&_).
    by apply (Search_spec fwd abs E G e fuel clk p b l co p' (IH (W Hw)) HE Hw).
Qed.
End reach.
