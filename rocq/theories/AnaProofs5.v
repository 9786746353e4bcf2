From Coq Require Import ZifyBool ZifyNat QArith Qround Lqa.
From Verif Require Import Base KeyModel HeapModel HeapProofs ListModel ListProofs AngleModel AngleProofs AraModel AraSpec AraProofs AraProofs3 AraPath AraProofs7 AnaModel AnaSpec AnaProofs AnaProofs2 AnaProofs3 AnaProofs4.
Local Open Scope Z_scope.

Section planner.
Context (fwd con : bool).
Notation ainv G e := (ainv G e fwd).
Notation alinv G e := (alinv G e fwd con).

Record wpinv (G : nat -> list (nat * Z)) (e : aenv) (p : ana) : Prop := {
  q_fwd : nFwd p = fwd;
  q_ge : good_env fwd 1 G e;
  q_rep : exists m, rep (cOpen (nC p)) m /\ forall s, is_Some (m !! s) -> is_Some (cSt (nC p) !! s);
  q_call : 0 <= nCall p;
  q_dom : forall s a, cSt (nC p) !! s = Some a -> (s < eSize e)%nat /\ 0 <= sCall a <= nCall p;
  q_start : forall s, nStart p = Some s -> is_Some (cSt (nC p) !! s);
  q_goal : forall s, nGoal p = Some s -> is_Some (cSt (nC p) !! s)
}.
Record apinv (G : nat -> list (nat * Z)) (e : aenv) (p : ana) : Prop := {
  q_w : wpinv G e p;
  q_sees : asees fwd con G e (nGoal p);
  q_search : nReinit p = false -> exists s g m, alinv G e s g p m
}.

(** A stale search is replaced by a fresh one. *)
Lemma areinit_spec G e p s g : apinv G e p -> nStart p = Some s -> nGoal p = Some g -> nCall p + 1 < 65536 ->
  exists p' m', aReInitializeSearchStateSpace e p = Ok p' /\ alinv G e s g p' m' /\ nFirst p' = nFirst p /\ nCall p' = nCall p + 1 /\
    rgt (nSat p') (1, 1) = true /\ m' <> ∅.
Proof.
  intros P Hs Hg Hcall. destruct P as [[Pf Pge (m&Rm&_) Pc Pdom Pst Pgo] Psees _].
  unfold aReInitializeSearchStateSpace. ncbn.
  destruct (makeemptyheap_spec ckeyops _ _ Rm) as (h0&Eh0&Rh0&Oh0). rewrite Eh0. cbn [lift obind]. rewrite Hs, Hg.
  set (call := u16 (nCall p + 1)). assert (call = nCall p + 1) as Ecall by (unfold call, u16; apply Z.mod_small; lia).
  clearbody call. subst call. replace (bool_decide (is_Some (Some g))) with true by done.
  set (c0 := mkCore (cSt (nC p)) h0 (cInc (nC p))). rewrite Pf.
  assert (forall u, lk e fwd (nCall p + 1) c0 u = fresh_info e fwd (nCall p + 1) true u) as HL0.
  { intros u. unfold lk. cbn. destruct (cSt (nC p) !! u) as [a|] eqn:Ea; [|done]. destruct (Pdom u a Ea) as (_&?).
    destruct (sCall a =? nCall p + 1) eqn:Ec; [lia|done]. }
  assert (forall u, ~ current (nCall p + 1) c0 u) as Hnc.
  { intros u (a&Ea&Ec). destruct (Pdom u a Ea) as (_&?). lia. }
  destruct (Pst s Hs) as [as0 Eas]. rewrite refresh_eq. cbn [cSt c0]. rewrite Eas.
  destruct (sCall as0 =? nCall p + 1) eqn:Ec0.
  { exfalso. apply (Hnc s). exists as0. split; [done|lia]. }
  cbn [obind]. set (c1 := ReInitializeSearchStateInfo e fwd (nCall p + 1) true c0 s).
  assert (rdst c1 s = Ok (fresh_info e fwd (nCall p + 1) true s)) as ->.
  { unfold rdst, c1. cbn. by rewrite lookup_insert. }
  cbn [obind]. cbn [fresh_info sV sIter sCall sPred sNext sCostNext sH].
  set (a1 := mkA INFINITECOST 0 0 (nCall p + 1) None None INFINITECOST (ComputeHeuristic e fwd s)).
  set (c2 := set_st c1 s a1).
  assert (forall u, lk e fwd (nCall p + 1) c2 u = if decide (u = s) then a1 else fresh_info e fwd (nCall p + 1) true u) as HL2.
  { intros u. unfold c2. rewrite (lk_set e fwd (nCall p + 1) c1 s a1 u) by done. destruct (decide (u = s)); [done|].
    unfold c1. rewrite reinit_lk by apply Hnc. apply HL0. }
  destruct (insertheap_spec ckeyops ckeylaws (cOpen c2) ∅ s (e_key INFINITECOST 0 (ComputeHeuristic e fwd s))) as (h4&Eh4&R4&O4).
  { apply idx_rep; done. } { done. } { done. } { by rewrite map_size_empty. }
  rewrite Eh4. cbn [lift obind]. set (m4 := <[s:=e_key INFINITECOST 0 (ComputeHeuristic e fwd s)]> (∅ : gmap nat ckey)) in *.
  eexists _, m4. split; [reflexivity|].
  assert (m4 <> ∅) as Hm4 by (intros HE; pose proof (f_equal (fun m => m !! s) HE) as HE'; unfold m4 in HE'; cbn in HE'; rewrite lookup_insert in HE'; done).
  assert (forall u, lk e fwd (nCall p + 1) (mkCore (cSt c2) h4 (cInc c2)) u = lk e fwd (nCall p + 1) c2 u) as HL4 by done.
  split; [|done]. 
  assert (sG (lk e fwd (nCall p + 1) c2 g) <= INFINITECOST /\ (s <> g -> sG (lk e fwd (nCall p + 1) c2 g) = INFINITECOST)) as [Hgg Hgg2].
  { rewrite HL2. destruct (decide (g = s)); cbn; [|done]. split; [unfold INFINITECOST; lia|congruence]. }
  split; ncbn; try done; [lia| | | | |].
  - split; cbn [cOpen cSt]; try done.
    + intros u a. cbn. destruct (decide (u = s)) as [->|?].
      * rewrite lookup_insert. intros [= <-]. cbn. destruct (Pdom s as0 Eas). split; [done|lia].
      * rewrite !lookup_insert_ne by done. intros Ha. destruct (Pdom u a Ha). split; [done|lia].
    + intros u. rewrite HL4, HL2. by destruct (decide (u = s)) as [->|?].
    + intros u. rewrite HL4, HL2. destruct (decide (u = s)) as [->|?]; cbn; unfold INFINITECOST; lia.
    + intros u. rewrite HL4, HL2. unfold m4. destruct (decide (u = s)) as [->|?]; cbn; [done|]. rewrite lookup_insert_ne, lookup_empty by done. by intros [? ?].
    + rewrite HL4, HL2. by destruct (decide (s = s)).
    + intros u. rewrite HL4, HL2. destruct (decide (u = s)) as [->|?]; cbn; [done|lia].
    + rewrite HL4, HL2. by destruct (decide (g = s)).
    + intros u t w. rewrite HL4, HL2. destruct (decide (u = s)); cbn; lia.
    + intros u. rewrite HL4, HL2. unfold m4. destruct (decide (u = s)) as [->|?]; cbn; [by rewrite lookup_insert|lia].
  - unfold ngl. ncbn. rewrite HL4. destruct (decide (s = g)) as [?|Hne]; [by right|left]. by rewrite Hgg2.
  - unfold satok, INFR. cbn [fst snd]. split_and!; try (unfold INFINITECOST; lia). intros _ C HC. unfold ngl. ncbn. rewrite HL4.
    destruct (sr_pos G s g C (Gpos G e fwd Pge) HC) as [HC0 HC1]. destruct (decide (C = 0)) as [->|?]; [|unfold INFINITECOST in *; nia].
    specialize (HC1 eq_refl) as ->. rewrite HL2, decide_True by done. cbn. lia.
  - cbn. destruct (Pgo g Hg) as [ag Eag]. split.
    + destruct (decide (g = s)) as [->|?]; [rewrite lookup_insert; eauto|rewrite !lookup_insert_ne by done; eauto].
    + rewrite lookup_insert. eauto.
  - right. split; [exact Hm4|done].
Qed.
Lemma astart_spec G e p s g : apinv G e p -> nStart p = Some s -> nGoal p = Some g -> nCall p + 1 < 65536 ->
  exists p' m', (if nReinit p then aReInitializeSearchStateSpace e p else Ok p) = Ok p' /\ alinv G e s g p' m' /\ nFirst p' = nFirst p /\
    nCall p' <= nCall p + 1 /\ (nReinit p = false -> p' = p).
Proof.
  intros P Hs Hg Hc. destruct (nReinit p) eqn:Er.
  - destruct (areinit_spec G e p s g P Hs Hg Hc) as (p'&m'&?&?&?&?&_). exists p', m'. split_and!; try done. lia.
  - destruct (q_search _ _ _ P Er) as (s'&g'&m&L). assert (s' = s /\ g' = g) as [-> ->].
    { pose proof (l_start _ _ _ _ _ _ _ _ L). pose proof (l_goal _ _ _ _ _ _ _ _ L). split; congruence. }
    exists p, m. split_and!; try done. lia.
Qed.

(** Path extraction. *)
Lemma alinv_bk G e s g p m : alinv G e s g p m -> bk G e fwd (nCall p) s (nC p).
Proof.
  intros L. pose proof (l_inv _ _ _ _ _ _ _ _ L) as I. split.
  - intros u a Ha. by apply (ai_dom _ _ _ _ _ _ _ _ _ _ I u a).
  - intros u. pose proof (ai_g _ _ _ _ _ _ _ _ _ _ I u). lia.
  - intros u. apply (ai_back _ _ _ _ _ _ _ _ _ _ I).
Qed.
Lemma alinv_sim G e s g p m c' : fwd = true -> alinv G e s g p m -> sim (nC p) c' -> alinv G e s g (with_ncore p c') m.
Proof.
  intros Hf L S. pose proof S as (S1&S2&S3&S4). pose proof (fun u => sim_lk e fwd (nCall p) _ _ u S) as HL.
  assert (forall u, sV (lk e fwd (nCall p) c' u) = sV (lk e fwd (nCall p) (nC p) u)) as HV by (intros u; apply HL).
  assert (forall u, sG (lk e fwd (nCall p) c' u) = sG (lk e fwd (nCall p) (nC p) u)) as HG by (intros u; apply HL).
  assert (forall u, sH (lk e fwd (nCall p) c' u) = sH (lk e fwd (nCall p) (nC p) u)) as HH by (intros u; apply HL).
  assert (forall u, lB fwd (lk e fwd (nCall p) c' u) = lB fwd (lk e fwd (nCall p) (nC p) u)) as HB by (rewrite Hf in *; intros u; cbn; by destruct (HL u) as (_&_&_&_&?&_)).
  unfold with_ncore. destruct L. split; ncbn; try done.
  - destruct l_inv. split; try done; try (intros; rewrite ?HV, ?HG, ?HH, ?HB in *; eauto; fail).
    + by rewrite S1.
    + by rewrite S1.
    + intros u a Ha. destruct (sim_dom _ _ _ _ S Ha) as (b&Hb&->). eauto.
    + intros u. rewrite HG, HB. intros Hu Hus. destruct (ai_back u Hu Hus) as (q&w&?&?&?&?). exists q, w. by rewrite HV.
  - unfold ngl in *. ncbn. by rewrite HG.
  - unfold ngl in *. ncbn. by rewrite HG.
  - destruct l_there as [[a Ha] [b Hb]]. destruct (S3 _ a Ha) as (a'&?&_), (S3 _ b Hb) as (b'&?&_). eauto.
  - destruct l_cur as [(a&Ha&Hc)|?]; [left|by right]. destruct (S3 _ a Ha) as (a'&Ha'&(_&_&_&Hc'&_)). exists a'. ncbn. split; [done|congruence].
Qed.

(** What a change of the environment that the search does not notice leaves. *)
Lemma alinv_env G e e' s g p m : alinv G e s g p m -> eSize e' = eSize e -> (forall u, heur fwd e' u = heur fwd e u) -> alinv G e' s g p m.
Proof.
  intros L Hsz Hh.
  assert (forall call c u, lk e' fwd call c u = lk e fwd call c u) as HL.
  { intros call c u. unfold lk. assert (fresh_info e' fwd call true u = fresh_info e fwd call true u) as ->; [|done].
    unfold fresh_info. f_equal. exact (Hh u). }
  destruct L. split; try done; unfold ngl in *; try (by rewrite HL).
  destruct l_inv. split; try done; try (intros; rewrite ?HL, ?Hh in *; eauto; fail).
  - intros u a Ha. rewrite Hsz. eauto.
  - intros u. rewrite HL. intros Hu Hus. destruct (ai_back u Hu Hus) as (q&w&?&?&?&?). exists q, w. by rewrite HL.
Qed.
Lemma alinv_apinv G e s g p m : good_env fwd 1 G e -> asees fwd con G e (Some g) -> alinv G e s g p m -> apinv G e p.
Proof.
  intros Hge Hs L. pose proof (l_inv _ _ _ _ _ _ _ _ L) as I. split.
  - split; try done; try apply L.
    + exists m. split; [apply I|]. intros u Hu. pose proof (ai_heap _ _ _ _ _ _ _ _ _ _ I u Hu). pose proof (ai_g _ _ _ _ _ _ _ _ _ _ I u).
      destruct (lk_finite e fwd (nCall p) (nC p) u) as (a&?&_); [lia|]. eauto.
    + intros u. rewrite (l_start _ _ _ _ _ _ _ _ L). intros [= <-]. apply L.
    + intros u. rewrite (l_goal _ _ _ _ _ _ _ _ L). intros [= <-]. apply L.
  - by rewrite (l_goal _ _ _ _ _ _ _ _ L).
  - intros _. by exists s, g, m.
Qed.

(** Setting start and goal. *)
Lemma aget_spec e call gs c id c' : GetState e fwd call gs c id = Ok c' ->
  (id < eSize e)%nat /\ is_Some (cSt c' !! id) /\ (forall s, is_Some (cSt c !! s) -> is_Some (cSt c' !! s)) /\
  (c' = c \/ cSt c !! id = None /\ c' = ReInitializeSearchStateInfo e fwd call gs c id).
Proof.
  unfold GetState. destruct (eSize e <=? id)%nat eqn:El; [done|]. destruct (cSt c !! id) as [a|] eqn:Ea; intros [= <-].
  - split_and!; [lia|eauto|done|by left].
  - split_and!; [lia| | |by right].
    + cbn. rewrite lookup_insert. eauto.
    + intros s Hs. cbn. destruct (decide (s = id)) as [->|?]; [rewrite lookup_insert; eauto|by rewrite lookup_insert_ne].
Qed.
Lemma wp_get G e p id c' gs : wpinv G e p -> GetState e fwd (nCall p) gs (nC p) id = Ok c' ->
  wpinv G e (with_ncore p c') /\ is_Some (cSt c' !! id).
Proof.
  intros P HE. destruct (aget_spec _ _ _ _ _ _ HE) as (Hid&His&Hpr&Hc). split; [|done]. destruct Hc as [->|(Hnone&->)]; [by destruct p|].
  destruct P as [Pf Pge (m&Rm&Hmz) Pc Pdom Pst Pgo].
  assert (m !! id = None) as Hm by (destruct (m !! id) eqn:Em; [|done]; destruct (Hmz id) as [? ?]; [eauto|congruence]).
  unfold with_ncore. split; ncbn; try (intros; auto; fail).
  - exists m. cbn [ReInitializeSearchStateInfo cOpen]. split; [by apply idx_rep|auto].
  - intros s a. cbn [ReInitializeSearchStateInfo cSt]. destruct (decide (s = id)) as [->|?].
    + rewrite lookup_insert. intros [= <-]. cbn. split; [done|lia].
    + rewrite lookup_insert_ne by done. apply Pdom.
Qed.
Lemma wp_env G e e' p : wpinv G e p -> good_env fwd 1 G e' -> eSize e' = eSize e -> wpinv G e' p.
Proof. intros P Hge Hsz. destruct P. split; try done. intros s a. rewrite Hsz. auto. Qed.
Lemma wp_sgoal G e p id p' : wpinv G e p -> aSetSearchGoalState e p id = Ok p' ->
  wpinv G e p' /\ nCall p' = nCall p /\ (nReinit p' = false -> nGoal p' = nGoal p -> p' = p).
Proof.
  intros P. unfold aSetSearchGoalState. destruct (bool_decide (nGoal p = Some id)) eqn:Eb; [by intros [= <-]|].
  apply bool_decide_eq_false in Eb. intros HE. apply obind_ok in HE as (c&Ec&[= <-]). rewrite (q_fwd _ _ _ P) in *.
  destruct (wp_get G e p id c _ P Ec) as [P' Hid]. unfold with_ncore in P'. destruct P' as [Pf Pge (m&Rm&Hmz) Pc Pdom Pst Pgo]. ncbn.
  split; [|split; [done|intros _ Hg; by rewrite Hg in Eb]]. revert Pf Pge Rm Pc Pdom Pst Pgo. ncbn. intros. split; ncbn; try done.
  - exists m. split; [done|]. intros s Hs. by apply hvals_present, Hmz.
  - intros s a Ha. destruct (hvals_dom _ _ _ _ _ Ha) as (b&Hb&->). eauto.
  - intros s Hs. apply hvals_present. auto.
  - intros s [= <-]. by apply hvals_present.
Qed.
Lemma wp_sstart G e p id p' : wpinv G e p -> aSetSearchStartState e p id = Ok p' ->
  wpinv G e p' /\ nCall p' = nCall p /\ (nReinit p' = false -> p' = p).
Proof.
  intros P. unfold aSetSearchStartState. intros HE. apply obind_ok in HE as (c&Ec&[= <-]). rewrite (q_fwd _ _ _ P) in *.
  destruct (wp_get G e p id c _ P Ec) as [P' Hid]. unfold with_ncore in P'. destruct P' as [Pf Pge Rm Pc Pdom Pst Pgo]. ncbn.
  split; [|split; [done|]].
  - revert Pf Pge Rm Pc Pdom Pst Pgo. ncbn. intros. split; ncbn; try done. by intros s [= <-].
  - destruct (bool_decide (nStart p = Some id)) eqn:Eb; [|done]. apply bool_decide_eq_true in Eb. intros Hr.
    destruct (q_start _ _ _ P id Eb) as [a Ea]. unfold GetState in Ec. destruct (_ <=? _)%nat; [done|]. rewrite Ea in Ec. injection Ec as <-.
    pose proof (q_fwd _ _ _ P). destruct p; cbn in *. congruence.
Qed.
Lemma ap_set G e e' p p' : apinv G e p -> good_env fwd 1 G e' -> eSize e' = eSize e ->
  (exists id, aset_goal e' p id = Ok p' \/ aset_start e' p id = Ok p') -> asees fwd con G e' (nGoal p') ->
  nCall p' = nCall p /\ apinv G e' (ascratch p') /\
  (nReinit p' = true \/ nGoal p' = nGoal p /\ (forall s, heur fwd e' s = heur fwd e s) -> apinv G e' p').
Proof.
  intros P Hge Hsz (id&Hset) Hsees. pose proof (wp_env G e e' p (q_w _ _ _ P) Hge Hsz) as W.
  assert (wpinv G e' p' /\ nCall p' = nCall p /\ (nReinit p' = false -> nGoal p' = nGoal p -> p' = p)) as (W'&Hc&Hsame).
  { assert (aSetSearchGoalState e' p id = Ok p' \/ aSetSearchStartState e' p id = Ok p') as [Hx|Hx].
    { unfold aset_goal, aset_start in Hset. destruct (nFwd p); tauto. }
    - by apply (wp_sgoal G e' p id p').
    - destruct (wp_sstart G e' p id p' W Hx) as (?&?&?). split_and!; auto. }
  split; [done|]. split.
  - split; [|done|done]. destruct W'. by split.
  - intros Hor. split; [done|done|]. intros Hr. destruct Hor as [?|[Hg Hh]]; [congruence|].
    specialize (Hsame Hr Hg) as ->. destruct (q_search _ _ _ P Hr) as (s&g&m&L). exists s, g, m. by apply (alinv_env G e).
Qed.
Lemma ap_costs G e G' e' p : apinv G e p -> good_env fwd 1 G' e' -> (eSize e <= eSize e')%nat -> asees fwd con G' e' (nGoal p) ->
  apinv G' e' (ascratch p).
Proof.
  intros P Hge Hsz Hse. split; [|done|done]. destruct (q_w _ _ _ P). split; try done. intros s a Ha. cbn in Ha.
  destruct (q_dom0 s a Ha). cbn. split; [lia|done].
Qed.
Lemma ap_mode G e p b : apinv G e p -> apinv G e (aset_search_mode p b).
Proof.
  intros P. destruct P as [W Hs Hr]. split; [|done|].
  - destruct W. by split.
  - intros H. destruct (Hr H) as (s&g&m&L). exists s, g, m. destruct L. by split.
Qed.
Lemma aloop_nogoal fuel fuel2 e clk p n r : nGoal p = None -> asearch_loop fuel fuel2 e clk p n = Ok r -> r.1 = p.
Proof.
  intros Hg. destruct fuel as [|fuel]; cbn [asearch_loop]; [done|]. destruct (aworth p); [|by intros [= <-]].
  destruct (clk n); [|by intros [= <-]]. unfold around, aImprovePath. rewrite Hg. done.
Qed.
Lemma areinit_fields e p p' : aReInitializeSearchStateSpace e p = Ok p' -> nGoal p' = nGoal p /\ is_Some (nStart p).
Proof.
  unfold aReInitializeSearchStateSpace. intros HE. apply obind_ok in HE as (h&_&HE). destruct (nStart p) as [s|]; [|done].
  apply obind_ok in HE as (c&_&HE). apply obind_ok in HE as (a&_&HE). apply obind_ok in HE as (h'&_&HE). injection HE as <-. ncbn. eauto.
Qed.
Lemma ap_replan G e p fuel clk r p' : apinv G e p -> nCall p + 1 < 65536 -> areplan fuel e clk p = Ok (r, p') ->
  apinv G e p' /\ nCall p' <= nCall p + 1.
Proof.
  intros P Hc HE. unfold areplan, aSearch in HE. apply obind_ok in HE as (p1&E1&HE). apply obind_ok in HE as (q&E2&HE).
  assert (exists s g, nStart p = Some s /\ nGoal p = Some g) as (s&g&Hs&Hg).
  { destruct (nReinit p) eqn:Er.
    - destruct (areinit_fields _ _ _ E1) as [Hg [s Hs]]. destruct (nGoal p) as [g|]; [by exists s, g|].
      apply (aloop_nogoal _ _ _ _ _ _ _ Hg) in E2. by rewrite E2, Hg in HE.
    - destruct (q_search _ _ _ P Er) as (s&g&m&L). exists s, g. split; apply L. }
  destruct (astart_spec G e p s g P Hs Hg Hc) as (p1'&m1&E1'&L1&_&Hc1&_). rewrite E1 in E1'. injection E1' as <-.
  pose proof (q_ge _ _ _ (q_w _ _ _ P)) as Hge. pose proof (q_sees _ _ _ P) as Hse. rewrite Hg in Hse.
  destruct (asearch_loop_inv G e fwd con s g Hge Hse fuel fuel clk p1 m1 0 q L1 E2) as (m2&L2&S2&_).
  destruct S2 as (_&Hc2&_). rewrite (l_goal _ _ _ _ _ _ _ _ L2) in HE. apply obind_ok in HE as (ga&_&HE).
  destruct (sG ga =? INFINITECOST).
  { injection HE as _ <-. split; [by eapply alinv_apinv|lia]. }
  apply obind_ok in HE as (r2&E3&HE). injection HE as _ <-. split; [|unfold with_ncore; ncbn; lia].
  destruct r2 as [path c']. unfold aGetSearchPath in E3. rewrite (l_start _ _ _ _ _ _ _ _ L2), (l_goal _ _ _ _ _ _ _ _ L2), (l_fwd _ _ _ _ _ _ _ _ L2) in E3.
  cbn [snd]. destruct fwd eqn:Ef; rewrite <- Ef in *.
  - apply obind_ok in E3 as (c1&E4&E3). apply obind_ok in E3 as (l&_&[= _ <-]).
    eapply alinv_apinv; [done|done|]. apply alinv_sim; [done|done|]. by eapply reconstruct_sim.
  - apply obind_ok in E3 as (l&_&[= _ <-]). eapply alinv_apinv; [done|done|]. destruct (q.1). exact L2.
Qed.

Lemma ap_reach n w : areach fwd con n w -> Z.of_nat n < 65536 -> apinv (nwG w) (nwE w) (nwP w) /\ nCall (nwP w) <= Z.of_nat n.
Proof.
  induction 1; cbn [nwG nwE nwP] in *; intros Hn.
  - split; [|cbn; lia]. split; [|done|done]. split; try done; cbn; try lia.
    + exists ∅. split; [by apply (new_heap_rep ckeyops)|]. intros s. rewrite lookup_empty. by intros [? ?].
  - destruct (IHareach Hn) as [P Hc]. destruct (ap_set G e e' p p' P) as (Hc'&_&HP); eauto. split; [by apply HP|lia].
  - destruct (IHareach Hn) as [P Hc]. destruct (ap_set G e e' p p' P) as (Hc'&_&HP); eauto. split; [by apply HP|lia].
  - destruct (IHareach Hn) as [P Hc]. destruct (ap_set G e e' p p' P) as (Hc'&HP&_); eauto. split; [done|cbn; lia].
  - destruct (IHareach Hn) as [P Hc]. destruct (ap_set G e e' p p' P) as (Hc'&HP&_); eauto. split; [done|cbn; lia].
  - destruct (IHareach Hn) as [P Hc]. split; [by eapply ap_costs|cbn; lia].
  - destruct (IHareach Hn) as [P Hc]. split; [by apply ap_mode|cbn; lia].
  - destruct (IHareach ltac:(lia)) as [P Hc]. destruct (ap_replan G e p fuel clk r p' P) as [? ?]; [lia|done|]. split; [done|lia].
Qed.
End planner.
