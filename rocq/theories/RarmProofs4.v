(** InitializeEnv, GetSuccs, the random functions, the heuristic. *)
From Coq Require Import ZifyBool ZifyNat.
From Verif Require Import Base BfsSpec BresModel BresProofs RarmModel RarmSpec RarmProofs RarmProofs2 RarmProofs3.
Local Open Scope Z_scope.
#[local] Arguments ContXY2Cell : simpl never.
#[local] Arguments ra_GETHASHBIN : simpl never.

Section arm.
Context (a : arm) (Hwf : arm_wf a).
Notation w := (a_w a).
Notation h := (a_h a).
Notation inm := (in_map w h).

Lemma zeros_config : config a zeros.
Proof.
  split; [done|]. intros i v n Hv Hn. apply lookup_replicate in Hv as [-> _]. destruct (aw_valr _ Hwf i n Hn). lia.
Qed.

Lemma init_again s0 : r_map s0 <> 0%nat -> exists s, ra_Init a s0 = Exn s.
Proof.
  intros H. unfold ra_Init. assert (forall (s : robarm) c e, r_tab s = [] -> r_map s <> 0%nat -> exists s', ra_Create s c e = Exn s') as G.
  { intros s c e Ht Hm. unfold ra_Create. rewrite Ht. cbn [length]. destruct (r_map s); [done|]. cbn [Nat.ltb Nat.leb Nat.eqb]. eauto. }
  destruct (G (mkRob [] ∅ (r_map s0) (r_start s0) (r_goal s0) (r_heur s0)) (a_start a) (EndEffector a (a_start a)) eq_refl H) as (s'&->).
  cbn [obind]. eauto.
Qed.

Lemma init_ok : exists b s, ra_Init a new_robarm = Ok (b, s) /\
  (b = true <-> config_ok a (a_start a) /\ a_gx a < w /\ a_gy a < h) /\
  length (r_tab s) = 2%nat /\ (b = true -> tinv a s).
Proof.
  pose proof Hwf as [Hw Hsq Hsz Hmap Hv Hvr Hst [Hgx Hgy]].
  destruct (valid_spec a Hwf (a_start a)) as (v&Ev&Hvs).
  assert (exists H, ComputeHeuristicValues w h (a_grid a) = Ok H /\
    forall src c, inm src -> inm c -> exists row v,
    H !! XYTO2DIND w src.1 src.2 = Some row /\ row !! XYTO2DIND w c.1 c.2 = Some v /\ shortest w h (a_grid a) src c v) as (H&EH&HH).
  { rewrite Hsq in *. apply heur_ok; auto. }
  unfold ra_Init, ra_Create, new_robarm. cbn [r_tab r_map r_bins r_start r_goal r_heur length Nat.ltb Nat.leb Nat.eqb obind fst snd app].
  rewrite Ev. cbn [ra_lift obind].
  destruct (negb v || (w <=? a_gx a) || (h <=? a_gy a)) eqn:Eb.
  - do 2 eexists. split; [done|]. split_and!; try done. split; [done|]. intros (Hok&?&?). apply Hvs in Hok. subst v. simpl in Eb. lia.
  - rewrite EH. cbn [ra_lift obind]. do 2 eexists. split; [done|]. 
    assert (v = true /\ a_gx a < w /\ a_gy a < h) as (->&?&?) by (destruct v; simpl in Eb; split_and!; [done|lia|lia|lia|lia|lia]).
    assert (config_ok a (a_start a)) as Hok by by apply Hvs.
    split_and!; [done|done|]. intros _.
    assert (inm (goal_cell a)) as Hg by (unfold in_map, goal_cell; simpl; lia).
    constructor; cbn [r_tab r_map r_bins r_start r_goal r_heur]; auto.
    + apply (bins_create a Hwf [mkHent (Z.of_nat 0) (a_start a) (EndEffector a (a_start a))]).
      apply (bins_create a Hwf [] ∅). intros b. rewrite lookup_empty. done.
    + intros p e He. destruct p as [|[|p]]; simplify_eq/=; (split; [done|]); [done|apply zeros_config].
    + split; [done|]. eauto.
    + intros p e He Hp. destruct p as [|[|p]]; simplify_eq/=. split; done.
    + intros p q e e' He He' Hlt Heq. apply lookup_lt_Some in He, He'. simpl in *. lia.
Qed.

Lemma step_mod n v d : 0 <= v < n -> n <= 65535 -> d = -1 \/ d = 1 -> ra_step n v d = (v + d) mod n.
Proof.
  intros Hv Hn [-> | ->]; unfold ra_step; simpl; unfold u16.
  - destruct (Z.eqb_spec v 0) as [-> |].
    + rewrite (Z.mod_small (n - 1)) by lia. replace (0 + -1) with (n - 1 + -1 * n) by lia. rewrite Z.mod_add by lia. rewrite Z.mod_small; lia.
    + rewrite !Z.mod_small by lia. done.
  - rewrite Z.rem_mod_nonneg by lia. pose proof (Z.mod_pos_bound (v + 1) n ltac:(lia)). rewrite (Z.mod_small (_ mod n)); lia.
Qed.

Lemma turn_spec c m : config a c -> m ∈ ra_moves -> exists n v,
  a_vals a !! m.1 = Some n /\ c !! m.1 = Some v /\ (n =? 0) = false /\
  <[m.1 := ra_step n v m.2]> c = turn a c m.1 m.2 /\ config a (turn a c m.1 m.2).
Proof.
  intros [Hl Hr] Hm.
  assert ((m.1 < 6)%nat /\ (m.2 = -1 \/ m.2 = 1)) as [Hi Hd].
  { unfold ra_moves, NUMOFLINKS in Hm. simpl in Hm. repeat (apply elem_of_cons in Hm as [-> |Hm]; [simpl; lia|]). by apply elem_of_nil in Hm. }
  destruct (lookup_lt_is_Some_2 (a_vals a) m.1) as [n En]; [rewrite (aw_vals _ Hwf); lia|].
  destruct (lookup_lt_is_Some_2 c m.1) as [v Ev]; [lia|].
  pose proof (Hr _ _ _ Ev En) as Hv. pose proof (aw_valr _ Hwf _ _ En) as Hn.
  exists n, v. unfold turn. rewrite En, Ev. rewrite step_mod by (auto; lia). split_and!; try done; [lia|].
  split; [by rewrite insert_length|]. intros i v' n' Hv' Hn'. destruct (decide (i = m.1)) as [-> |Hne].
  - rewrite list_lookup_insert in Hv' by lia. injection Hv' as <-. assert (n' = n) as -> by congruence. apply Z.mod_pos_bound. lia.
  - rewrite list_lookup_insert_ne in Hv' by done. eauto.
Qed.

(** Goal states are noticed by GetSuccs if steps are small. *)
Lemma succ1_ok s0 e m s ids costs (ok : list Z -> bool) :
  (forall c, ok c = true <-> config_ok a c) -> small_steps a ->
  tinv a s -> ext s0 s -> config a (e_coord e) -> config_ok a (e_coord e) -> e_eff e = tip a (e_coord e) -> m ∈ ra_moves ->
  exists s' ids' costs', ra_succ1 a e m (s, ids, costs) = Ok (s', ids ++ ids', costs ++ costs') /\ tinv a s' /\ ext s s' /\
    let L := filter (fun c => ok c = true) [turn a (e_coord e) m.1 m.2] in
    Forall2 (names a s') ids' L /\ costs' = replicate (length L) 1.
Proof.
  intros Hok Hsm T E Hce Hoke Heff Hm. destruct (turn_spec _ m Hce Hm) as (n&v&En&Ev&Hn0&Eturn&Hct).
  unfold ra_succ1. rewrite En, Ev, Hn0. cbv zeta. rewrite Eturn. set (c := turn a (e_coord e) m.1 m.2) in *.
  destruct (valid_spec a Hwf c) as (b&Eb&Hb). rewrite Eb. cbn [ra_lift obind].
  rewrite filter_cons, filter_nil. destruct b; cbn [negb].
  2:{ exists s, [], []. rewrite !app_nil_r. split; [done|]. split; [done|]. split; [done|].
      destruct (decide (ok c = true)) as [Hc|Hc]; [|split; [constructor|done]]. exfalso. apply Hok, Hb in Hc. done. }
  assert (config_ok a c) as Hokc by by apply Hb.
  rewrite decide_True by by apply Hok.
  assert (((Z.abs ((e_eff e).1 - a_gx a) <? 3) || (Z.abs ((e_eff e).2 - a_gy a) <? 3)) &&
     ((EndEffector a c).1 =? a_gx a) && ((EndEffector a c).2 =? a_gy a) = goalb a c) as ->.
  { change (EndEffector a c) with (tip a c). rewrite <- andb_assoc. fold (goalb a c).
    destruct (goalb a c) eqn:Eg; [|apply andb_false_r]. rewrite andb_true_r. apply goalb_spec in Eg.
    destruct (Hsm (e_coord e) c Hce Hoke Hokc) as [Hx _].
    { unfold neighbours. apply elem_of_list_fmap. exists m. split; [done|]. exact Hm. }
    rewrite Eg in Hx. rewrite Heff. unfold goal_cell in Hx. destruct (tip a (e_coord e)) as [tx ty]. cbn [fst snd] in Hx |- *.
    destruct (Z.ltb_spec (Z.abs (tx - a_gx a)) 3); [done|lia]. }
  change (EndEffector a c) with (tip a c).
  destruct (lookup_step a Hwf s c T Hct Hokc) as (p&s'&e'&Es&T'&E'&He'&Hid&Hnm).
  assert (forall B (f : nat * robarm -> outcome robarm B), obind (ra_lift s (ra_GetHashEntry s c (goalb a c))) (fun o =>
     obind (match o with Some p => Ok (p, s) | None => ra_Create s c (tip a c) end) f) = f (p, s')) as G.
  { intros B f. destruct (ra_lift s (ra_GetHashEntry s c (goalb a c))); simpl in Es |- *; try done. by rewrite Es. }
  rewrite G. cbn [fst snd]. rewrite He'.
  rewrite (cost_ok a Hwf _ _ Hoke Hokc). cbn [ra_lift obind].
  exists s', [e_id e'], [1]. split; [done|]. split; [done|]. split; [done|]. split; [|done]. by repeat constructor.
Qed.

Lemma succs_loop s0 e (ok : list Z -> bool) :
  (forall c, ok c = true <-> config_ok a c) -> small_steps a ->
  config a (e_coord e) -> config_ok a (e_coord e) -> e_eff e = tip a (e_coord e) ->
  forall ms s ids costs, (forall m, m ∈ ms -> m ∈ ra_moves) -> tinv a s -> ext s0 s ->
  exists s' ids' costs', ra_iter ms (ra_succ1 a e) (s, ids, costs) = Ok (s', ids ++ ids', costs ++ costs') /\ tinv a s' /\ ext s s' /\
    let L := filter (fun c => ok c = true) ((fun m => turn a (e_coord e) m.1 m.2) <$> ms) in
    Forall2 (names a s') ids' L /\ costs' = replicate (length L) 1.
Proof.
  intros Hok Hsm Hce Hoke Heff. induction ms as [|m ms IH]; intros s ids costs Hms T E.
  - exists s, [], []. rewrite !app_nil_r. split; [done|]. split; [done|]. split; [apply ext_refl|]. split; [constructor|done].
  - destruct (succ1_ok s0 e m s ids costs ok Hok Hsm T E Hce Hoke Heff ltac:(set_solver)) as (s1&i1&c1&E1&T1&X1&N1&C1).
    cbn [ra_iter]. rewrite E1. cbn [obind].
    destruct (IH s1 (ids ++ i1) (costs ++ c1) ltac:(set_solver) T1 (ext_trans _ _ _ E X1)) as (s2&i2&c2&E2&T2&X2&N2&C2).
    exists s2, (i1 ++ i2), (c1 ++ c2). rewrite E2, !app_assoc. split; [done|]. split; [done|]. split; [by eapply ext_trans|].
    rewrite fmap_cons. change ((turn a (e_coord e) m.1 m.2) :: ((fun m => turn a (e_coord e) m.1 m.2) <$> ms))
      with ([turn a (e_coord e) m.1 m.2] ++ ((fun m => turn a (e_coord e) m.1 m.2) <$> ms)).
    cbv zeta. rewrite filter_app. split.
    + apply Forall2_app; [|done]. eapply Forall2_impl; [exact N1|]. intros i c. by apply names_ext.
    + rewrite C1, C2, app_length, replicate_add. done.
Qed.

Lemma succs_ok s id (ok : list Z -> bool) : (forall c, ok c = true <-> config_ok a c) -> small_steps a ->
  tinv a s -> 0 <= id < Z.of_nat (length (r_tab s)) ->
  exists s' ids costs, ra_GetSuccs a s id = Ok (s', ids, costs) /\ tinv a s' /\ ext s s' /\
   (id = 1 -> ids = [] /\ costs = []) /\
   (id <> 1 -> exists e, r_tab s !! Z.to_nat id = Some e /\ e_id e = id /\
     let L := filter (fun c => ok c = true) (neighbours a (e_coord e)) in
     Forall2 (names a s') ids L /\ costs = replicate (length L) 1).
Proof.
  intros Hok Hsm T Hid. unfold ra_GetSuccs. destruct (t_goal _ _ T) as (Eg&Ege&_). rewrite Eg, Ege. cbn [e_id].
  destruct (Z.eqb_spec id 1) as [-> |Hne].
  - exists s, [], []. split; [done|]. split; [done|]. split; [done|]. split; done.
  - destruct (Z.ltb_spec id 0); [lia|]. destruct (lookup_lt_is_Some_2 (r_tab s) (Z.to_nat id)) as [e He]; [lia|]. rewrite He.
    destruct (t_id _ _ T _ _ He) as [Hide Hce]. destruct (t_valid _ _ T _ _ He ltac:(lia)) as [Hoke Heff].
    destruct (succs_loop s e ok Hok Hsm Hce Hoke Heff ra_moves s [] [] ltac:(done) T (ext_refl s)) as (s'&ids&costs&E&T'&X&N).
    exists s', ids, costs. split; [done|]. split; [done|]. split; [done|]. split; [done|]. intros _. exists e. split; [done|]. split; [lia|]. exact N.
Qed.

(** Sampled configurations. *)
Lemma sample_ok s c : tinv a s -> config a c -> config_ok a c ->
  exists p s' e, ra_sample a s c = Ok (p, s') /\ tinv a s' /\ ext s s' /\ r_tab s' !! p = Some e /\ e_id e = Z.of_nat p /\ names a s' (e_id e) c.
Proof. intros T Hc Hok. apply (lookup_step a Hwf s c T Hc Hok). Qed.

Lemma random_ok draws : forall s id s', tinv a s -> Forall (config a) draws -> ra_GetRandomState a s draws = Ok (id, s') ->
  tinv a s' /\ ext s s' /\ exists i c, draws !! i = Some c /\ config_ok a c /\ names a s' id c /\
    forall j c', (j < i)%nat -> draws !! j = Some c' -> ~ config_ok a c'.
Proof.
  induction draws as [|c draws IH]; intros s id s' T Hd; [done|]. apply Forall_cons in Hd as [Hc Hd]. cbn [ra_GetRandomState].
  destruct (valid_spec a Hwf c) as (b&Eb&Hb). rewrite Eb. cbn [ra_lift obind]. destruct b; cbn [negb].
  - destruct (sample_ok s c T Hc ltac:(by apply Hb)) as (p&s1&e&E&T1&X1&He&Hi&N). rewrite E. cbn [obind fst snd]. rewrite He.
    intros [= <- <-]. split; [done|]. split; [done|]. exists 0%nat, c. split; [done|]. split; [by apply Hb|]. split; [done|]. intros j c' Hj. lia.
  - intros E. destruct (IH s id s' T Hd E) as (?&?&i&c'&?&?&?&Hj). split; [done|]. split; [done|]. exists (S i), c'.
    split; [done|]. split; [done|]. split; [done|]. intros [|j] c'' Hlt Hl; [|apply (Hj j c''); [lia|done]].
    injection Hl as <-. rewrite <- Hb. done.
Qed.
Lemma random_total draws : forall s, tinv a s -> Forall (config a) draws -> (exists c, c ∈ draws /\ config_ok a c) ->
  exists id s', ra_GetRandomState a s draws = Ok (id, s').
Proof.
  induction draws as [|c draws IH]; intros s T Hd (c0&Hin&Hok0); [by apply elem_of_nil in Hin|].
  apply Forall_cons in Hd as [Hc Hd]. cbn [ra_GetRandomState].
  destruct (valid_spec a Hwf c) as (b&Eb&Hb). rewrite Eb. cbn [ra_lift obind]. destruct b; cbn [negb].
  - destruct (sample_ok s c T Hc ltac:(by apply Hb)) as (p&s1&e&E&T1&X1&He&Hi&N). rewrite E. cbn [obind fst snd]. rewrite He. eauto.
  - apply IH; [done|done|]. apply elem_of_cons in Hin as [-> |Hin]; [|eauto]. apply Hb in Hok0. done.
Qed.

Lemma from_to_ok s f t ef et : tinv a s -> r_tab s !! Z.to_nat f = Some ef -> r_tab s !! Z.to_nat t = Some et -> 0 <= f -> 0 <= t ->
  exists v, ra_GetFromToHeuristic a s f t = Ok v /\ shortest w h (a_grid a) (e_eff et) (e_eff ef) v.
Proof.
  intros T Hf Ht Hf0 Ht0. unfold ra_GetFromToHeuristic. 
  destruct (Z.ltb_spec f 0); [lia|]. destruct (Z.ltb_spec t 0); [lia|]. cbn [orb]. rewrite Hf, Ht.
  assert (forall p e, r_tab s !! p = Some e -> inm (e_eff e)) as Hin.
  { intros p e He. destruct (decide (p = 1%nat)) as [-> |Hp].
    - destruct (t_goal _ _ T) as (_&E1&Hg). rewrite He in E1. injection E1 as ->. done.
    - destruct (t_valid _ _ T _ _ He Hp) as [_ ->]. apply tip_in. done. }
  destruct (t_heur _ _ T (e_eff et) (e_eff ef)) as (row&v&Hr&Hv&Hs); [eauto|eauto|]. rewrite Hr, Hv. eauto.
Qed.

(** The lower bounds of GetRandomSuccsatDistance. *)
Definition low_ok (s : robarm) (src : hent) (id low : Z) : Prop := 0 <= id /\
  exists e, r_tab s !! Z.to_nat id = Some e /\ e_id e = id /\ shortest w h (a_grid a) (e_eff e) (e_eff src) low.
Lemma low_ext s s' src id low : ext s s' -> low_ok s src id low -> low_ok s' src id low.
Proof. intros X (?&e&He&?&?). split; [done|]. exists e. split; [by eapply ext_lookup|done]. Qed.

Definition near30 (x y : Z * Z) : bool := (Z.abs (x.1 - y.1) <=? 30) && (Z.abs (x.2 - y.2) <=? 30).
Lemma rsuccs_loop e p (ok : list Z -> bool) : (forall c, ok c = true <-> config_ok a c) ->
  forall draws s ids lows, tinv a s -> r_tab s !! p = Some e -> Forall (config a) draws ->
  exists s' ids' lows', ra_iter draws (ra_rsucc1 a e) (s, ids, lows) = Ok (s', ids ++ ids', lows ++ lows') /\ tinv a s' /\ ext s s' /\
    Forall2 (low_ok s' e) ids' lows' /\
    Forall2 (names a s') ids' (filter (fun c => ok c && near30 (e_eff e) (tip a c) = true) draws).
Proof.
  intros Hok. induction draws as [|c draws IH]; intros s ids lows T He Hd.
  - exists s, [], []. rewrite !app_nil_r. split; [done|]. split; [done|]. split; [apply ext_refl|]. split; constructor.
  - apply Forall_cons in Hd as [Hc Hd]. cbn [ra_iter].
    assert (exists s1 i1 l1, ra_rsucc1 a e c (s, ids, lows) = Ok (s1, ids ++ i1, lows ++ l1) /\ tinv a s1 /\ ext s s1 /\ Forall2 (low_ok s1 e) i1 l1 /\
      Forall2 (names a s1) i1 (filter (fun c => ok c && near30 (e_eff e) (tip a c) = true) [c])) as (s1&i1&l1&E1&T1&X1&N1&M1).
    { unfold ra_rsucc1. destruct (valid_spec a Hwf c) as (b&Eb&Hb). rewrite Eb. cbn [ra_lift obind]. rewrite filter_cons, filter_nil.
      assert (ok c = b) as ->. { destruct (ok c) eqn:Eo, b; try done; [apply Hok, Hb in Eo; done|]. assert (ok c = true) by (apply Hok, Hb; done). congruence. }
      destruct b; cbn [negb andb].
      2:{ exists s, [], []. rewrite !app_nil_r. split; [done|]. split; [done|]. split; [apply ext_refl|]. split; constructor. }
      change (EndEffector a c) with (tip a c).
      assert ((ra_LONG <? Z.abs ((e_eff e).1 - (tip a c).1)) || (ra_LONG <? Z.abs ((e_eff e).2 - (tip a c).2)) = negb (near30 (e_eff e) (tip a c))) as ->.
      { unfold near30, ra_LONG. generalize (Z.abs ((e_eff e).1 - (tip a c).1)), (Z.abs ((e_eff e).2 - (tip a c).2)). intros u v. lia. }
      destruct (near30 _ _); cbn [negb].
      2:{ exists s, [], []. rewrite !app_nil_r. split; [done|]. split; [done|]. split; [apply ext_refl|]. split; constructor. }
      destruct (sample_ok s c T Hc ltac:(by apply Hb)) as (q&s1&e1&E1&T1&X1&He1&Hi1&N1). rewrite E1. cbn [obind fst snd]. rewrite He1.
      destruct (t_id _ _ T _ _ He) as [Hid _].
      destruct (from_to_ok s1 (e_id e) (e_id e1) e e1 T1) as (v&Ev&Hv).
      { rewrite Hid, Nat2Z.id. by eapply ext_lookup. } { by rewrite Hi1, Nat2Z.id. } { lia. } { lia. }
      rewrite Ev. cbn [obind]. exists s1, [e_id e1], [v]. split; [done|]. split; [done|]. split; [done|].
      split; [|by repeat constructor]. constructor; [|constructor]. split; [lia|]. exists e1. rewrite Hi1, Nat2Z.id. done. }
    rewrite E1. cbn [obind]. destruct (IH s1 (ids ++ i1) (lows ++ l1) T1 ltac:(by eapply ext_lookup) Hd) as (s2&i2&l2&E2&T2&X2&N2&M2).
    exists s2, (i1 ++ i2), (l1 ++ l2). rewrite E2, !app_assoc. split; [done|]. split; [done|]. split; [by eapply ext_trans|]. split.
    + apply Forall2_app; [|done]. eapply Forall2_impl; [exact N1|]. intros i l. by apply low_ext.
    + change (c :: draws) with ([c] ++ draws). rewrite filter_app. apply Forall2_app; [|done].
      eapply Forall2_impl; [exact M1|]. intros i c'. by apply names_ext.
Qed.

Lemma rsuccs_ok s id draws (ok : list Z -> bool) : (forall c, ok c = true <-> config_ok a c) ->
  tinv a s -> 0 <= id < Z.of_nat (length (r_tab s)) -> Forall (config a) draws ->
  exists s' ids lows, ra_GetRandomSuccs a s id draws = Ok (s', ids, lows) /\ tinv a s' /\ ext s s' /\
    exists e, r_tab s !! Z.to_nat id = Some e /\ Forall2 (low_ok s' e) ids lows /\
    (id = 1 -> ids = []) /\
    (id <> 1 -> exists ids', ids = ids' ++ (if near30 (e_eff e) (goal_cell a) then [1] else []) /\
       Forall2 (names a s') ids' (filter (fun c => ok c && near30 (e_eff e) (tip a c) = true) draws)).
Proof.
  intros Hok T Hid Hd. unfold ra_GetRandomSuccs. destruct (t_goal _ _ T) as (Eg&Ege&_). rewrite Eg, Ege. cbn [e_id].
  destruct (lookup_lt_is_Some_2 (r_tab s) (Z.to_nat id)) as [e He]; [lia|].
  destruct (Z.eqb_spec id 1) as [-> |Hne].
  - exists s, [], []. split; [done|]. split; [done|]. split; [done|]. exists e. split; [done|]. split; [constructor|]. split; done.
  - destruct (Z.ltb_spec id 0); [lia|]. rewrite He.
    destruct (rsuccs_loop e _ ok Hok draws s [] [] T He Hd) as (s'&ids&lows&E&T'&X&N&M). rewrite E. cbn [obind app].
    assert ((Z.abs (a_gx a - (e_eff e).1) <=? ra_LONG) && (Z.abs (a_gy a - (e_eff e).2) <=? ra_LONG) = near30 (e_eff e) (goal_cell a)) as ->.
    { unfold near30, goal_cell, ra_LONG. destruct (e_eff e) as [u v]. cbn [fst snd]. lia. }
    destruct (near30 (e_eff e) (goal_cell a)) eqn:En.
    + destruct (t_id _ _ T _ _ He) as [Hide _].
      destruct (from_to_ok s' (e_id e) 1 e (mkHent 1 zeros (goal_cell a)) T') as (v&Ev&Hv).
      { rewrite Hide, Nat2Z.id. by eapply ext_lookup. } { by eapply ext_lookup. } { lia. } { lia. }
      rewrite Ev. cbn [obind]. exists s', (ids ++ [1]), (lows ++ [v]). split; [done|]. split; [done|]. split; [done|]. exists e. split; [done|].
      split; [|split; [by intros Hx|intros _; exists ids; rewrite En; split; [reflexivity|exact M]]].
      apply Forall2_app; [done|]. constructor; [|constructor]. split; [lia|]. eexists. split; [by eapply ext_lookup|done].
    + exists s', ids, lows. split; [done|]. split; [done|]. split; [done|]. exists e. split; [done|]. split; [done|]. split; [by intros Hx|].
      intros _. exists ids. rewrite En, app_nil_r. split; [reflexivity|exact M].
Qed.

Lemma goal_heur_ok s id e : tinv a s -> 0 <= id -> r_tab s !! Z.to_nat id = Some e ->
  exists v, ra_GetGoalHeuristic a s id = Ok v /\ shortest w h (a_grid a) (goal_cell a) (e_eff e) v.
Proof.
  intros T Hid He. unfold ra_GetGoalHeuristic. destruct (t_goal _ _ T) as (Eg&Ege&_). rewrite Eg, Ege.
  destruct (from_to_ok s id 1 e (mkHent 1 zeros (goal_cell a)) T He Ege Hid ltac:(lia)) as (v&Ev&Hv). eauto.
Qed.

Lemma shortest_fun g src c v v' : shortest w h g src c v -> shortest w h g src c v' -> v = v'.
Proof.
  intros [[-> H1]|(H1&H2&H3)] [[-> H1']|(H1'&H2'&H3')]; [done|by apply H1 in H2'|by apply H1' in H2|].
  apply H3 in H2'. apply H3' in H2. lia.
Qed.
Lemma shortest_nonneg g src c v : shortest w h g src c v -> 0 <= v.
Proof. intros [[-> _]|[? _]]; lia. Qed.
Lemma shortest_src g src v : shortest w h g src src v -> v = 0.
Proof. intros [[_ H]|(?&_&H)]; [|specialize (H 0%nat (walk_src _ _ _ _ eq_refl)); lia]. exfalso. by apply (H 0%nat), walk_src. Qed.
Lemma shortest_step g src c c' v v' : free w h g c -> Z.abs (c'.1 - c.1) <= 1 -> Z.abs (c'.2 - c.2) <= 1 ->
  shortest w h g src c v -> shortest w h g src c' v' -> v <= v' + 1.
Proof.
  intros Hf Hx Hy Hv Hv'. destruct (decide (c' = c)) as [-> |Hne].
  { rewrite (shortest_fun g src c v v' Hv Hv'). lia. }
  destruct Hv' as [[-> _]|(Hr&Hw&_)]; [destruct Hv as [[-> _]|[? _]]; lia|].
  assert (walk (free w h g) adj8 (eq src) (S (Z.to_nat v')) c) as Hw'.
  { eapply walk_step; [exact Hw| |done]. unfold adj8. destruct (Z.eq_dec c'.1 c.1), (Z.eq_dec c'.2 c.2); try lia.
    exfalso. apply Hne. destruct c, c'; simpl in *; congruence. }
  destruct Hv as [[_ Hn]|(_&_&Hm)]; [by apply Hn in Hw'|]. specialize (Hm _ Hw'). lia.
Qed.
End arm.
