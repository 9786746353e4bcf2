(** Histories of calls: counters (C25). *)
From Coq Require Import ZifyBool ZifyNat QArith Qround Lqa.
From Verif Require Import Base KeyModel HeapModel HeapProofs ListModel ListProofs AngleModel AngleProofs AraModel AraSpec AraProofs AraProofs2 AraPath AraProofs3 AraProofs4 AraProofs5 AraProofs6 AraProofs7.
Local Open Scope Z_scope.

Lemma u16_le x : 0 <= x -> u16 x <= x.
Proof. intros. unfold u16. by apply Z.mod_le. Qed.
Lemma u16_nn x : 0 <= u16 x.
Proof. unfold u16. by apply Z.mod_pos_bound. Qed.
Lemma body_iter e clk b p n r p' n' : 0 <= aIter p -> body e clk b p n = Ok (r, p', n') -> 0 <= aIter p' <= aIter p + 1.
Proof.
  unfold body. intros H0 HE. destruct (eps_step_rest p b) as (S1&I1&W1).
  apply obind_ok in HE as (p1&E1&HE). apply obind_ok in HE as (p2&E2&HE). apply obind_ok in HE as ([[r' c'] n'']&_&[= <- <- <-]).
  assert (0 <= aIter p1 <= aIter p + 1) as H1.
  { unfold new_iteration in E1. destruct (aNew (eps_step p b)); [|injection E1 as <-; lia].
    apply obind_ok in E1 as (c&_&[= <-]). wcbn. rewrite I1. pose proof (u16_le (aIter p + 1)). pose proof (u16_nn (aIter p + 1)). lia. }
  assert (aIter p2 = aIter p1) as H2.
  { unfold new_priorities in E2. destruct (aReeval p1); [|by injection E2 as <-]. by apply obind_ok in E2 as (c&_&[= <-]). }
  cbn [fst snd]. unfold after_improve. destruct (r' =? 1); wcbn; lia.
Qed.
Lemma loop_iter e clk b : forall fuel p n p' n', 0 <= aIter p -> search_loop fuel e clk b p n = Ok (p', n') -> 0 <= aIter p' <= aIter p + Z.of_nat fuel.
Proof.
  induction fuel as [|fuel IH]; intros p n p' n' H0; [done|]. rewrite search_loop_eq.
  destruct (Qltb (aFinal p) (aSat p)); [|intros [= <- _]; lia]. destruct (clk n); [|intros [= <- _]; lia].
  intros HE. apply obind_ok in HE as ([[r p1] n1]&E1&HE). cbn [fst snd] in HE.
  pose proof (body_iter _ _ _ _ _ _ _ _ H0 E1) as H1. destruct b.
  - injection HE as <- _. lia.
  - destruct (aGoal p1); [|done]. apply obind_ok in HE as (ga&_&HE). destruct (sG ga =? INFINITECOST); [injection HE as <- _; lia|].
    specialize (IH p1 n1 p' n' ltac:(lia) HE). lia.
Qed.
Lemma Search_cnt fuel e clk p r p' : 0 <= aIter p -> 0 <= aCall p -> Search fuel e clk p = Ok (r, p') ->
  0 <= aIter p' <= aIter p + Z.of_nat fuel /\ 0 <= aCall p' <= aCall p + 1.
Proof.
  rewrite Search_eq. intros H1 H2 HE. apply obind_ok in HE as (p1&E1&HE). apply obind_ok in HE as ([p2 n2]&E2&HE). cbn [fst] in HE.
  assert (0 <= aIter p1 <= aIter p /\ 0 <= aCall p1 <= aCall p + 1) as [H3 H4].
  { unfold prep in E1. assert (exists p0, (if aReeval p then with_core p (Reevaluatehvals e (aFwd p) (aC p)) else p) = p0 /\ aIter p0 = aIter p /\ aCall p0 = aCall p) as (p0&E0&I0&C0).
    { destruct (aReeval p); eexists; split; done. }
    cbv zeta in E1. rewrite E0 in E1. destruct (aReinit p0); [|injection E1 as <-; lia]. unfold ReInitializeSearchStateSpace in E1. wcbn.
    apply obind_ok in E1 as (h&_&E1). apply obind_ok in E1 as (l&_&E1). destruct (aStart p0), (aGoal p0); try done.
    repeat (apply obind_ok in E1 as (?&_&E1)). injection E1 as <-. wcbn. rewrite C0.
    pose proof (u16_le (aCall p + 1)). pose proof (u16_nn (aCall p + 1)). lia. }
  destruct (loop_rest _ _ _ _ _ _ _ _ E2) as (S2&_). pose proof (loop_iter _ _ _ _ _ _ _ _ (proj1 H3) E2) as H5. destruct S2 as (Hc2&_).
  destruct (finish_rest _ _ _ _ HE) as [->|(c'&->&_)]; wcbn; lia.
Qed.

Section hist.
Context (fwd : bool) (E : Q) (e : aenv).
Notation G := (nbrs e fwd).
Notation reach := (reach fwd false E).
Lemma any_sees go : sees fwd false G e go.
Proof. split; done. Qed.
Lemma set_start_total p id : (id < eSize e)%nat -> exists p', set_start e p id = Ok p' /\ user_start p' = Some id /\ user_goal p' = user_goal p /\
  aIter p' = aIter p /\ aCall p' = aCall p /\ aWrap p' = aWrap p.
Proof.
  intros Hid. unfold set_start, SetSearchStartState, SetSearchGoalState, GetState, user_start, user_goal.
  replace (eSize e <=? id)%nat with false by lia.
  assert (forall c, exists c', (match cSt c !! id with Some _ => Ok c | None => Ok (ReInitializeSearchStateInfo e (aFwd p) (aCall p) (bool_decide (is_Some (aGoal p))) c id) end : ares core) = Ok c') as Hc.
  { intros c. destruct (cSt c !! id); eauto. }
  destruct (Hc (aC p)) as (c'&Ec). rewrite Ec. cbn [obind]. clear Hc Ec. wcbn.
  destruct (aFwd p) eqn:Ef; case_bool_decide; eexists; (split; [reflexivity|]); wcbn; rewrite Ef; done.
Qed.
Lemma set_goal_total p id : (id < eSize e)%nat -> exists p', set_goal e p id = Ok p' /\ user_goal p' = Some id /\ user_start p' = user_start p /\
  aIter p' = aIter p /\ aCall p' = aCall p /\ aWrap p' = aWrap p.
Proof.
  intros Hid. unfold set_goal, SetSearchStartState, SetSearchGoalState, GetState, user_start, user_goal.
  replace (eSize e <=? id)%nat with false by lia.
  assert (forall c, exists c', (match cSt c !! id with Some _ => Ok c | None => Ok (ReInitializeSearchStateInfo e (aFwd p) (aCall p) (bool_decide (is_Some (aGoal p))) c id) end : ares core) = Ok c') as Hc.
  { intros c. destruct (cSt c !! id); eauto. }
  destruct (Hc (aC p)) as (c'&Ec). rewrite Ec. cbn [obind]. clear Hc Ec. wcbn.
  destruct (aFwd p) eqn:Ef; case_bool_decide; eexists; (split; [reflexivity|]); wcbn; rewrite Ef; done.
Qed.
Lemma play_total fuel k : good_env fwd E G e -> (S k < fuel)%nat -> forall acts p, Forall (good_act E e k) acts -> reach (mkWorld G e p) -> aWrap p = false ->
  user_start p <> None -> user_goal p <> None ->
  aCall p + Z.of_nat (replans acts) < 65536 -> aIter p + Z.of_nat (replans acts * fuel) < 65536 ->
  exists rs p', play e fuel acts p = Ok (rs, p') /\ reach (mkWorld G e p') /\ aWrap p' = false /\ length rs = replans acts.
Proof.
  intros Hge Hfuel. induction acts as [|a acts IH]; intros p Hall HR Hw Hus Hug Hc Hi.
  { exists [], p. done. }
  apply Forall_cons in Hall as [Ha Hall].
  destruct a as [id|id| | |q clk]; cbn [play good_act] in *.
  - destruct (set_start_total p id Ha) as (p'&E1&U1&U2&I1&C1&W1). rewrite E1. cbn [obind]. apply IH; try done; try congruence; [|by rewrite C1|by rewrite I1].
    eapply (reach_start _ _ _ _ e); try exact HR; try exact E1; try done; try apply any_sees; try (by right).
  - destruct (set_goal_total p id Ha) as (p'&E1&U1&U2&I1&C1&W1). rewrite E1. cbn [obind]. apply IH; try done; try congruence; [|by rewrite C1|by rewrite I1].
    eapply (reach_goal _ _ _ _ e); try exact HR; try exact E1; try done; try apply any_sees; try (by right).
  - apply IH; try done. by apply reach_scratch.
  - apply IH; try done. eapply reach_costs; done.
  - destruct Ha as (Hq&Hclk&Hmon&Hd&Hk).
    assert (replans (AReplan q clk :: acts) = S (replans acts)) as Er by done. rewrite Er in *.
    pose proof (reach_pinv _ _ _ _ HR Hw) as P. cbn [wP wG wE] in P. pose proof (pinv_params _ _ _ _ _ _ q P Hq) as Pq.
    pose proof (p_eps _ _ _ _ _ _ Pq) as Hep. pose proof (p_fwd _ _ _ _ _ _ Pq) as Hfw. pose proof (p_cnt _ _ _ _ _ _ P) as Hcnt. cbn in Hep, Hfw.
    assert (exists s' g', aStart p = Some s' /\ aGoal p = Some g') as (s'&g'&Es&Eg).
    { unfold user_start, user_goal in *. destruct (aFwd p), (aStart p), (aGoal p); try done; eauto. }
    destruct Hq as (Hqi&Hqf&Hqd).
    destruct (Search_total fwd false E G e fuel clk (set_params p q) s' g' k Pq) as (r&p'&HE&Hw'); try done; cbn.
    { intros _. lia. } { destruct (aReinit p); lia. } { destruct (aReinit p); lra. }
    unfold replan. rewrite HE. cbn [obind fst snd].
    destruct (Search_cnt fuel e clk (set_params p q) r p') as (Hi'&Hc'); try done; try (cbn; lia). cbn in Hi', Hc', Hw'.
    assert (reach (mkWorld G e p')) as HR'.
    { eapply reach_replan; [|exact HE]. apply reach_params; done. }
    destruct (Search_rest _ _ _ _ _ _ HE) as (G1&S1&F1&_). cbn in G1, S1, F1.
    destruct (IH p') as (rs&p2&E2&HR2&W2&L2); try done; try congruence.
    + unfold user_start in *. rewrite F1, S1, G1. done.
    + unfold user_goal in *. rewrite F1, S1, G1. done.
    + lia.
    + lia.
    + rewrite E2. cbn [obind fst snd]. exists (r :: rs), p2. split_and!; try done. cbn. congruence.
Qed.
End hist.

(** Nothing is left of earlier searches after a reinitialisation. *)
Lemma reinit_fresh fwd con E G e p p' : pinv fwd con E G e p -> ReInitializeSearchStateSpace e p = Ok p' -> aWrap p' = false ->
  forall s a, cSt (aC p') !! s = Some a -> sCall a = aCall p' ->
    sV a = INFINITECOST /\ sPred a = None /\ sNext a = None /\ sG a = if decide (aStart p' = Some s) then 0 else INFINITECOST.
Proof.
  intros P HE Hw s a Ha Hc. unfold ReInitializeSearchStateSpace in HE. wcbn.
  apply obind_ok in HE as (h&_&HE). apply obind_ok in HE as (l&_&HE). destruct (aStart p) as [s0|] eqn:Es, (aGoal p) as [g0|] eqn:Eg; try done.
  apply obind_ok in HE as (c1&E1&HE). apply obind_ok in HE as (a1&Ea1&HE). apply obind_ok in HE as (c2&E2&HE).
  apply obind_ok in HE as (a2&Ea2&HE). apply obind_ok in HE as (h3&E3&HE). injection HE as <-. wcbn. cbn [cSt] in Ha.
  apply orb_false_iff in Hw as [_ Hw]. pose proof (p_cnt _ _ _ _ _ _ P) as Hcnt.
  set (call := u16 (aCall p + 1)) in *. assert (call = aCall p + 1) as Ecall by (unfold call, u16; apply Z.mod_small; lia). clearbody call. rewrite Ecall in E1, E2, Hc. clear Ecall call.
  set (gs := true) in *.
  assert (forall c u c', refresh e (aFwd p) (aCall p + 1) gs c u = Ok c' -> forall v b, cSt c' !! v = Some b ->
     cSt c !! v = Some b /\ (v = u -> sCall b = aCall p + 1) \/ v = u /\ b = fresh_info e (aFwd p) (aCall p + 1) gs u /\ exists b0, cSt c !! u = Some b0 /\ sCall b0 <> aCall p + 1) as Href.
  { intros c u c' Hr v b Hb. unfold refresh, rdst in Hr. destruct (cSt c !! u) as [b0|] eqn:Eb0; [|done]. cbn [obind] in Hr. injection Hr as <-.
    destruct (sCall b0 =? aCall p + 1) eqn:Ec.
    - left. split; [done|]. intros ->. rewrite Eb0 in Hb. injection Hb as <-. lia.
    - cbn in Hb. destruct (decide (v = u)) as [->|Hn].
      + rewrite lookup_insert in Hb. injection Hb as <-. right. split_and!; try done. exists b0. split; [done|]. lia.
      + rewrite lookup_insert_ne in Hb by done. left. done. }
  assert (forall v b, cSt c1 !! v = Some b -> sCall b = aCall p + 1 -> v = s0 /\ b = fresh_info e (aFwd p) (aCall p + 1) gs s0) as H1.
  { intros v b Hb Hcb. destruct (Href _ _ _ E1 v b Hb) as [(Hb0&_)|(->&->&_)]; [|done]. cbn in Hb0.
    destruct (p_dom _ _ _ _ _ _ P v b Hb0) as (_&?). lia. }
  set (c1' := set_st c1 s0 _) in *.
  assert (sCall a1 = aCall p + 1) as Hca1.
  { unfold rdst in Ea1. destruct (cSt c1 !! s0) as [b|] eqn:Eb; [|done]. injection Ea1 as ->.
    destruct (Href _ _ _ E1 s0 a1 Eb) as [(_&Hx)|(_&->&_)]; [by apply Hx|done]. }
  assert (forall v b, cSt c1' !! v = Some b -> sCall b = aCall p + 1 -> v = s0 /\ sV b = INFINITECOST /\ sPred b = None /\ sNext b = None /\ sG b = 0) as H2.
  { intros v b Hb Hcb. unfold c1' in Hb. cbn in Hb. destruct (decide (v = s0)) as [->|Hn].
    - rewrite lookup_insert in Hb. injection Hb as <-. cbn. unfold rdst in Ea1. destruct (cSt c1 !! s0) as [b|] eqn:Eb; [|done]. injection Ea1 as ->.
      destruct (H1 s0 a1 Eb Hca1) as (_&->). done.
    - rewrite lookup_insert_ne in Hb by done. destruct (H1 v b Hb Hcb) as (->&_). done. }
  destruct (Href _ _ _ E2 s a Ha) as [(Hb0&_)|(->&->&(b0&Eb0&Hcb0))].
  - destruct (H2 s a Hb0 Hc) as (->&?&?&?&?). rewrite decide_True by done. done.
  - cbn. rewrite decide_False; [done|]. rewrite Es. intros [= <-]. unfold c1' in Eb0. cbn in Eb0. rewrite lookup_insert in Eb0. injection Eb0 as <-. cbn in Hcb0. done.
Qed.
