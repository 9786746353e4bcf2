(** EvaluatePolicy: cycles and merges. *)
From Verif Require Import Base MdpModel MdpSpec MdpProofs EvalModel EvalSpec EvalProofs EvalProofs2 EvalProofs3.
From Coq Require Import Lqa.
Local Open Scope Z_scope.

Lemma indegree_nonneg arr id : 0 <= indegree arr id.
Proof. induction arr; simpl; [lia|]. unfold outs_to. lia. Qed.

(** Index steps are id steps. *)
Lemma denotes_to_mdp arr j t : NoDup (es_id <$> arr) -> arr !! j = Some t -> denotes (to_mdp arr) (es_id t) j.
Proof.
  intros Hnd Hj. split.
  - exists (to_mstate t). by rewrite to_mdp_lookup, Hj.
  - intros k s Hk E. rewrite to_mdp_lookup in Hk. apply fmap_Some in Hk as (u&Hu&->). simpl in E.
    assert (k = j) by (eapply ids_unique; eauto). lia.
Qed.
Lemma step_iff c arr i s j t : wf_policy c arr -> arr !! i = Some s -> arr !! j = Some t ->
  policy_step (to_mdp arr) i j <-> id_step arr (es_id s) (es_id t).
Proof.
  intros [Hnd Hw] Hi Hj. split.
  - intros (u&a&acts&id&Hu&Ha&Hid&Hd). rewrite to_mdp_lookup, Hi in Hu. simpl in Hu. injection Hu as <-.
    simpl in Ha. destruct (Hw s) as [E|(b&E&_)]; [by eapply elem_of_list_lookup_2|by rewrite E in Ha|].
    rewrite E in Ha. injection Ha as <- <-.
    unfold aSuccs, to_maction in Hid. simpl in Hid. apply elem_of_list_fmap in Hid as (o'&->&Ho').
    apply elem_of_list_fmap in Ho' as (o&->&Ho). simpl in Hd.
    destruct Hd as [(v&Hv&Ev) _]. rewrite to_mdp_lookup, Hj in Hv. injection Hv as <-. simpl in Ev.
    exists b, o. split_and!; [|done..]. exists s. split_and!; [by eapply elem_of_list_lookup_2|done..].
  - intros (a&o&(u&Hu&Eu&Ha)&Ho&Eo).
    assert (u = s) as ->.
    { apply elem_of_list_lookup in Hu as [k Hk]. assert (k = i) by (eapply ids_unique; eauto). congruence. }
    exists (to_mstate s), (to_maction a), [], (es_id t). split_and!.
    + by rewrite to_mdp_lookup, Hi.
    + simpl. by rewrite Ha.
    + unfold aSuccs, to_maction. simpl. apply elem_of_list_fmap. exists (o.1.1, o.1.2, 0). split; [done|].
      apply elem_of_list_fmap. by exists o.
    + by apply denotes_to_mdp.
Qed.
Lemma policy_step_lt arr i j : policy_step (to_mdp arr) i j -> exists t, arr !! j = Some t.
Proof.
  intros (u&a&acts&id&_&_&_&[(v&Hv&_) _]). rewrite to_mdp_lookup in Hv. apply fmap_Some in Hv as (t&Ht&_). eauto.
Qed.
Lemma id_step_in c arr x y : wf_policy c arr -> id_step arr x y ->
  exists i s j t, arr !! i = Some s /\ es_id s = x /\ arr !! j = Some t /\ es_id t = y.
Proof.
  intros [Hnd Hw] (a&o&(s&Hs&<-&Ha)&Ho&<-). destruct (Hw s Hs) as [E|(b&E&_&Hin)]; [congruence|].
  assert (b = a) as -> by congruence. apply elem_of_list_lookup in Hs as [i Hi].
  specialize (Hin o Ho). apply elem_of_list_fmap in Hin as (t&Et&Ht). apply elem_of_list_lookup in Ht as [j Hj].
  by exists i, s, j, t.
Qed.
Lemma rtc_iff c arr i s j t : wf_policy c arr -> arr !! i = Some s -> arr !! j = Some t ->
  rtc (policy_step (to_mdp arr)) i j <-> rtc (id_step arr) (es_id s) (es_id t).
Proof.
  intros Hwf Hi Hj. split.
  - intros H. revert t Hj. refine (rtc_ind_r (fun j => forall t, arr !! j = Some t -> rtc (id_step arr) (es_id s) (es_id t)) i _ _ j H).
    + intros t Ht. by assert (t = s) as -> by congruence.
    + intros y z Hy Hyz IH t Ht.
      assert (exists u, arr !! y = Some u) as [u Hu].
      { destruct Hyz as (u&?&?&?&Hu&_). rewrite to_mdp_lookup in Hu. apply fmap_Some in Hu as (?&?&_). eauto. }
      eapply rtc_r; [by apply (IH u)|]. by apply (step_iff c arr y u z t).
  - intros H. remember (es_id t) as y eqn:Ey. revert j t Hj Ey.
    refine (rtc_ind_r (fun y => forall j t, arr !! j = Some t -> y = es_id t -> rtc (policy_step (to_mdp arr)) i j) (es_id s) _ _ y H).
    + intros j t Hj E. destruct Hwf. assert (i = j) as -> by (eapply ids_unique; eauto). done.
    + intros y' z Hy Hyz IH j t Hj ->.
      destruct (id_step_in c arr _ _ Hwf Hyz) as (k&u&k2&u2&Hk&<-&Hk2&E2).
      eapply rtc_r; [by apply (IH k u)|]. by apply (step_iff c arr k u j t).
Qed.

(** * The predecessor pass counts and detects *)
Lemma ev_pred_outs_spec arr first i j id predpc b outs : PathExists (to_mdp arr) i j = Ok b ->
  forall acc r, ev_pred_outs arr first i j id predpc outs acc = Ok r ->
  r.1.2 = acc.1.2 + outs_to id outs /\
  (r.2 = true <-> acc.2 = true \/ first = true /\ b = true /\ exists o, o ∈ outs /\ o.1.1 = id).
Proof.
  intros Hb. induction outs as [|o outs IH]; intros acc r; simpl.
  - intros [= <-]. unfold outs_to. simpl. split; [lia|]. split; [by left|].
    intros [?|(_&_&o&Ho&_)]; [done|by apply elem_of_nil in Ho].
  - unfold outs_to. rewrite filter_cons. destruct (Z.eqb_spec (o.1.1) id) as [E|E].
    + rewrite decide_True by done. intros H. apply obind_ok in H as (cyc&Hc&H). apply IH in H as [H1 H2]. simpl in *.
      unfold outs_to in H1. split; [lia|]. rewrite H2.
      destruct first; simpl in Hc.
      * destruct (acc.2) eqn:Ea; simpl in Hc.
        -- injection Hc as <-. tauto.
        -- rewrite Hb in Hc. injection Hc as <-. split.
           ++ intros [?|(_&?&o'&Ho'&Eo)]; right; (split; [done|]); (split; [done|]);
                [exists o; split; [set_solver|done]|exists o'; split; [set_solver|done]].
           ++ intros [?|(_&?&_)]; [done|by left].
      * injection Hc as <-. split; [intros [?|(?&_)]; [by left|done]|intros [?|(?&_)]; [by left|done]].
    + rewrite decide_False by done. intros H. apply IH in H as [H1 H2]. unfold outs_to in H1. split; [lia|].
      rewrite H2. split; (intros [?|(?&?&o'&Ho'&Eo)]; [by left|right]).
      * split; [done|]. split; [done|]. exists o'. split; [set_solver|done].
      * split; [done|]. split; [done|]. exists o'. split; [|done]. apply elem_of_cons in Ho' as [->|?]; done.
Qed.

Lemma ev_preds_spec c arr first i id pcs : wf_policy c arr -> (i < length arr)%nat -> forall js j acc r,
  ev_preds arr first i id pcs js j acc = Ok r ->
  r.1.2 = acc.1.2 + indegree js id /\
  (r.2 = true <-> acc.2 = true \/ first = true /\ exists k s o, js !! k = Some s /\ o ∈ act_outs s /\ o.1.1 = id /\
                   rtc (policy_step (to_mdp arr)) i (j + k)%nat).
Proof.
  intros Hwf Hi. induction js as [|s js IH]; intros j acc r; simpl.
  - intros [= <-]. split; [lia|]. split; [by left|]. intros [?|(_&k&s&o&Hk&_)]; done.
  - destruct (pcs !! j) as [predpc|]; [|done]. intros H. apply obind_ok in H as (acc1&H1&H).
    destruct (wf_path c arr i j Hwf Hi) as (b&Hb&Hbi).
    apply (ev_pred_outs_spec arr first i j id predpc b _ Hb) in H1 as [Hn1 Hc1].
    apply IH in H as [Hn Hc]. fold (act_outs s) in Hn1, Hc1. split; [lia|]. rewrite Hc, Hc1. split.
    + intros [[?|(?&->&o&Ho&E)]|(?&k&t&o&Hk&Ho&E&Hr)]; [by left|right|right].
      * split; [done|]. exists 0%nat, s, o. rewrite Nat.add_0_r. split_and!; auto. by apply Hbi.
      * split; [done|]. exists (S k), t, o. replace (j + S k)%nat with (S j + k)%nat by lia. split_and!; auto.
    + intros [?|(?&k&t&o&Hk&Ho&E&Hr)]; [by left; left|]. destruct k as [|k]; simpl in Hk.
      * injection Hk as ->. rewrite Nat.add_0_r in Hr. left. right. split_and!; [done|by apply Hbi|eauto].
      * right. split; [done|]. exists k, t, o. replace (S j + k)%nat with (j + S k)%nat by lia. split_and!; auto.
Qed.

(** What one state contributes. *)
Definition on_cycle (arr : list est) (x : Z) : Prop := exists y, id_step arr y x /\ rtc (id_step arr) x y.
Lemma ev_pc_spec c arr start goal i s st st' : wf_policy c arr -> arr !! i = Some s ->
  ev_pc arr start goal i s st = Ok st' ->
  ev_merges st' = ev_merges st + (if ev_first st then merge_of arr goal s else 0) /\
  (ev_cycles st' = true <-> ev_cycles st = true \/ ev_first st = true /\ on_cycle arr (es_id s)).
Proof.
  intros Hwf Hi H. pose proof (lookup_lt_Some _ _ _ Hi) as Hlt. unfold ev_pc in H. apply obind_ok in H as (r&Hr&H).
  apply (ev_preds_spec c) in Hr as [Hn Hc]; [|done..]. simpl in Hn, Hc.
  destruct ((if es_id s =? start then ev_pcs st else <[i:=r.1.1]> (ev_pcs st)) !! i) as [pc|]; [|done].
  injection H as <-. simpl. split.
  - rewrite Hn. unfold merge_of. pose proof (indegree_nonneg arr (es_id s)).
    destruct (ev_first st); simpl; [|lia]. destruct (es_id s =? goal); simpl; [lia|].
    destruct (Z.ltb_spec 0 (0 + indegree arr (es_id s))); simpl; lia.
  - rewrite Hc. split; (intros [?|(?&H)]; [by left|right; split; [done|]]).
    + destruct H as (k&t&o&Hk&Ho&E&Hr). exists (es_id t). split.
      * destruct Hwf as [Hnd Hw]. unfold act_outs in Ho. destruct (es_acts t) as [|a acts] eqn:Ea; [by apply elem_of_nil in Ho|].
        destruct (Hw t) as [E2|(b&E2&_)]; [by eapply elem_of_list_lookup_2|congruence|].
        exists a, o. split_and!; [|done..]. exists t. split_and!; [by eapply elem_of_list_lookup_2|done|congruence].
      * by apply (rtc_iff c arr i s (0 + k) t).
    + destruct H as (y&(a&o&(t&Ht&<-&Ha)&Ho&E)&Hr). apply elem_of_list_lookup in Ht as [k Hk].
      exists k, t, o. split_and!; [done|by unfold act_outs; rewrite Ha|done|]. by apply (rtc_iff c arr i s (0 + k) t).
Qed.

Lemma ev_state_mc c arr start goal i s st st' : wf_policy c arr -> arr !! i = Some s ->
  ev_state arr start goal i s st = Ok (st', false) ->
  ev_first st' = ev_first st /\
  ev_merges st' = ev_merges st + (if ev_first st then merge_of arr goal s else 0) /\
  (ev_cycles st' = true <-> ev_cycles st = true \/ ev_first st = true /\ on_cycle arr (es_id s)).
Proof.
  intros Hwf Hi H. unfold ev_state in H.
  assert (Hfst : forall st1 st2, ev_pc arr start goal i s st1 = Ok st2 -> ev_first st2 = ev_first st1).
  { intros st1 st2 H2. unfold ev_pc in H2. apply obind_ok in H2 as (r&_&H2).
    destruct ((if es_id s =? start then ev_pcs st1 else <[i:=r.1.1]> (ev_pcs st1)) !! i); [|done]. by injection H2 as <-. }
  destruct (es_id s =? goal).
  - apply obind_ok in H as (st2&H2&[= <-]). split; [by apply Hfst in H2|]. by apply (ev_pc_spec c) in H2.
  - destruct (es_acts s) as [|a acts]; [done|]. apply obind_ok in H as (q&_&H).
    destruct (ev_vals st !! i) as [v|]; [|done]. destruct (qltb q v); [done|].
    apply obind_ok in H as (st2&H2&[= <-]). split; [by apply Hfst in H2|]. by apply (ev_pc_spec c) in H2.
Qed.
Lemma ev_sweep_mc c arr start goal : wf_policy c arr -> forall ss i st st', ss = drop i arr ->
  ev_sweep arr start goal ss i st = Ok (st', false) ->
  ev_first st' = ev_first st /\
  ev_merges st' = ev_merges st + (if ev_first st then total_merges arr goal ss else 0) /\
  (ev_cycles st' = true <-> ev_cycles st = true \/ ev_first st = true /\ exists s, s ∈ ss /\ on_cycle arr (es_id s)).
Proof.
  intros Hwf. induction ss as [|s ss IH]; intros i st st' Hss; simpl.
  - intros [= <-]. split; [done|]. split; [destruct (ev_first st); lia|]. split; [by left|].
    intros [?|(_&s&Hs&_)]; [done|by apply elem_of_nil in Hs].
  - assert (Hs : arr !! i = Some s) by (rewrite <- (Nat.add_0_r i), <- lookup_drop, <- Hss; done).
    intros H. apply obind_ok in H as ([st1 b]&H1&H). simpl in H. destruct b; [done|].
    apply (ev_state_mc c) in H1 as (E1&M1&C1); [|done..].
    apply IH in H as (E2&M2&C2); [|apply (f_equal (drop 1)) in Hss; rewrite drop_drop in Hss;
      replace (i + 1)%nat with (S i) in Hss by lia; done].
    rewrite E1 in *. split; [done|]. split; [destruct (ev_first st); lia|]. rewrite C2, C1. split.
    + intros [[?|(?&?)]|(?&t&?&?)]; [by left|right|right]; (split; [done|]); [exists s|exists t]; split; set_solver.
    + intros [?|(?&t&[->|Ht]%elem_of_cons&?)]; [by left; left|left; right; done|right; split; [done|by exists t]].
Qed.
Lemma ev_sweep_not_early arr start goal : full_policy arr goal -> forall ss i st st' b,
  (forall s, s ∈ ss -> s ∈ arr) -> ev_sweep arr start goal ss i st = Ok (st', b) -> b = false.
Proof.
  intros Hfull. induction ss as [|s ss IH]; intros i st st' b Hin; simpl; [by intros [= _ <-]|].
  intros H. apply obind_ok in H as ([st1 b1]&H1&H). simpl in H.
  assert (b1 = false) as ->.
  { unfold ev_state in H1. destruct (Z.eqb_spec (es_id s) goal) as [E|E].
    - by apply obind_ok in H1 as (?&_&[= _ <-]).
    - destruct (es_acts s) eqn:Ea; [by destruct (Hfull s ltac:(apply Hin; set_solver) E)|].
      apply obind_ok in H1 as (q&_&H1). destruct (ev_vals st !! i); [|done]. destruct (qltb q _); [done|].
      by apply obind_ok in H1 as (?&_&[= _ <-]). }
  eapply IH; [|exact H]. intros t Ht. apply Hin. set_solver.
Qed.
Lemma ev_result_mc k st r : ev_result k st = Ok r -> er_merges r = ev_merges st /\ er_cycles r = ev_cycles st.
Proof.
  unfold ev_result. destruct k as [k|]; [|done]. destruct (ev_vals st !! k); [|done]. by intros [= <-].
Qed.
Lemma ev_loop_mc c arr start goal k : wf_policy c arr -> full_policy arr goal -> forall fuel st r,
  ev_first st = false -> ev_loop fuel arr start goal k st = Ok r ->
  er_merges r = ev_merges st /\ er_cycles r = ev_cycles st.
Proof.
  intros Hwf Hfull. induction fuel as [|fuel IH]; intros st r Hf; cbn [ev_loop]; [done|].
  destruct (qltb EV_MINDELTA (ev_delta st)); [|apply ev_result_mc].
  intros H. apply obind_ok in H as ([st1 b]&H1&H). cbn [fst snd] in H.
  assert (b = false) as -> by (eapply ev_sweep_not_early; [exact Hfull| |exact H1]; done).
  apply IH in H as [E1 E2]; [|done]. simpl in E1, E2.
  apply (ev_sweep_mc c) in H1 as (_&M&C); [|done|done]. simpl in M, C. rewrite Hf in M, C.
  split; [rewrite E1; lia|]. rewrite E2. apply eq_true_iff_eq. rewrite C. split; [intros [?|[? _]]; done|by left].
Qed.
Lemma EvaluatePolicy_mc c arr start goal cyc fuel r : wf_policy c arr -> full_policy arr goal ->
  EvaluatePolicy fuel arr start goal cyc = Ok r ->
  er_merges r = total_merges arr goal arr /\
  (er_cycles r = true <-> cyc = true \/ exists s, s ∈ arr /\ on_cycle arr (es_id s)).
Proof.
  intros Hwf Hfull. unfold EvaluatePolicy. destruct fuel as [|fuel]; cbn [ev_loop]; [done|].
  change (qltb EV_MINDELTA (ev_delta _)) with true. cbv iota.
  intros H. apply obind_ok in H as ([st1 b]&H1&H). cbn [fst snd] in H.
  assert (b = false) as -> by (eapply ev_sweep_not_early; [exact Hfull| |exact H1]; done).
  apply (ev_loop_mc c) in H as [E1 E2]; [|done..]. simpl in E1, E2.
  apply (ev_sweep_mc c) in H1 as (_&M&C); [|done|done]. simpl in M, C.
  split; [rewrite E1; lia|]. rewrite E2, C. split; (intros [?|H]; [by left|right]); [apply H|by split].
Qed.
