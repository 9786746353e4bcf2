(** The loop of Search, Search, and all reachable worlds. *)
From Coq Require Import ZifyBool ZifyNat QArith Qround Lqa.
From Verif Require Import Base KeyModel HeapModel HeapProofs ListModel ListProofs AngleModel AngleProofs AraModel AraSpec AraProofs AraProofs2 AraPath AraProofs3 AraProofs4.
Local Open Scope Z_scope.

(** * What no operation changes, and when the ghost flag stays clear *)
Lemma eps_step_rest p b : same_rest p (eps_step p b) /\ aIter (eps_step p b) = aIter p /\ aWrap (eps_step p b) = aWrap p.
Proof. unfold eps_step. destruct (Qltb _ _ && _); [|done]. wcbn. done. Qed.
Lemma new_iteration_rest e p p' : new_iteration e p = Ok p' -> same_rest p p' /\
  (aWrap p' = false -> aWrap p = false /\ (aNew p = true -> aIter p + 1 < 65536)).
Proof.
  unfold new_iteration. destruct (aNew p) eqn:En.
  - wcbn. intros HE. apply obind_ok in HE as (c&_&[= <-]). wcbn. split; [done|]. intros Hw. apply orb_false_iff in Hw as [-> Hw]. split; [done|]. lia.
  - intros [= <-]. split; [done|]. split; [done|]. congruence.
Qed.
Lemma new_priorities_rest p p' : new_priorities p = Ok p' -> same_rest p p' /\ aWrap p' = aWrap p.
Proof.
  unfold new_priorities. destruct (aReeval p) eqn:En; [|by intros [= <-]].
  intros HE. apply obind_ok in HE as (c&_&[= <-]). wcbn. done.
Qed.
Lemma after_improve_rest p r c : same_rest p (after_improve p r c) /\ aWrap (after_improve p r c) = aWrap p.
Proof. unfold after_improve. destruct (r =? 1); wcbn; done. Qed.
Lemma body_rest e clk b p n r p' n' : body e clk b p n = Ok (r, p', n') -> same_rest p p' /\
  (aWrap p' = false -> aWrap p = false /\ (aNew (eps_step p b) = true -> aIter p + 1 < 65536)).
Proof.
  unfold body. intros HE. destruct (eps_step_rest p b) as (S1&I1&W1).
  apply obind_ok in HE as (p1&E1&HE). apply obind_ok in HE as (p2&E2&HE). apply obind_ok in HE as ([[r' c'] n'']&_&[= <- <- <-]).
  cbn [fst snd]. destruct (new_iteration_rest _ _ _ E1) as (S2&W2). destruct (new_priorities_rest _ _ E2) as (S3&W3).
  destruct (after_improve_rest p2 r' c') as (S4&W4). split.
  - eapply same_rest_trans; [exact S1|]. eapply same_rest_trans; [exact S2|]. eapply same_rest_trans; [exact S3|exact S4].
  - rewrite W4, W3. intros Hw. destruct (W2 Hw) as [? ?]. rewrite <- W1, <- I1. done.
Qed.
Lemma loop_rest e clk b : forall fuel p n p' n', search_loop fuel e clk b p n = Ok (p', n') -> same_rest p p' /\ (aWrap p' = false -> aWrap p = false).
Proof.
  induction fuel as [|fuel IH]; intros p n p' n'; [done|]. rewrite search_loop_eq.
  destruct (Qltb (aFinal p) (aSat p)); [|by intros [= <- _]]. destruct (clk n); [|by intros [= <- _]].
  intros HE. apply obind_ok in HE as ([[r p1] n1]&E1&HE). cbn [fst snd] in HE.
  destruct (body_rest _ _ _ _ _ _ _ _ E1) as (S1&W1). destruct b.
  - injection HE as <- _. split; [done|]. intros Hw. by apply W1.
  - destruct (aGoal p1); [|done]. apply obind_ok in HE as (ga&_&HE). destruct (sG ga =? INFINITECOST).
    + injection HE as <- _. split; [done|]. intros Hw. by apply W1.
    + destruct (IH _ _ _ _ HE) as (S2&W2). split; [by eapply same_rest_trans|]. intros Hw. by apply W1, W2.
Qed.

Section loop.
Context (fwd con : bool) (E : Q) (G : nat -> list (nat * Z)) (e : aenv) (start goal : nat).
Notation linv := (linv fwd con E G e start goal).
Notation gg := (gg fwd e goal).
Notation gcur := (gcur goal).
Lemma gcur_rd p : gcur p -> exists ga, rdst (aC p) goal = Ok ga /\ sG ga = gg p.
Proof.
  intros (a&Ea&Ec). exists a. unfold rdst. rewrite Ea. split; [done|]. unfold AraProofs4.gg, lk. rewrite Ea.
  by replace (sCall a =? aCall p) with true by lia.
Qed.
(** A failure verdict. *)
Definition no_cheap (ep : Q) : Prop := con = true -> forall C, sr G (inflate ep) start goal C -> INFINITECOST <= C.

(** Everything about a terminating loop. *)
Lemma loop_spec clk b : forall fuel p n p' n', linv p -> search_loop fuel e clk b p n = Ok (p', n') -> aWrap p' = false ->
  linv p' /\ gg p' <= gg p /\ (clk n = true \/ gcur p -> gcur p') /\
  ((forall i, clk i = true) -> gg p' = INFINITECOST -> exists ep, (ep <= E)%Q /\ no_cheap ep).
Proof.
  induction fuel as [|fuel IH]; intros p n p' n' L; [done|]. rewrite search_loop_eq.
  pose proof L as (P&_&Hv&Hs&Hgoal).
  destruct (Qltb (aFinal p) (aSat p)) eqn:Esat.
  2:{ intros [= <- <-] Hw. destruct (linv_search _ _ _ _ _ _ _ p L) as (m&z&I&_&_&J).
      assert (~ (aFinal p < aSat p)%Q) as Hns by (destruct (Qltb_spec (aFinal p) (aSat p)); [discriminate|done]).
      pose proof (p_par _ _ _ _ _ _ P) as (_&?&_). pose proof (p_E _ _ _ _ _ _ P).
      destruct J as [J|(g&Hg&Hc&Hb)]. { rewrite J in Hns. exfalso. apply Hns. lra. }
      rewrite Hgoal in Hg. injection Hg as <-. split_and!; try done.
      intros _ Hinf. exists (aSat p). split; [lra|]. intros Hcon C HC. specialize (Hb Hcon C HC). unfold AraProofs4.gg in Hinf. lia. }
  destruct (clk n) eqn:En.
  2:{ intros [= <- <-] Hw. split_and!; try done; [by intros [?|?]|]. intros Ht. rewrite Ht in En. done. }
  intros HE Hw. apply obind_ok in HE as ([[r p1] n1]&E1&HE). cbn [fst snd] in HE.
  destruct (body_rest _ _ _ _ _ _ _ _ E1) as (S1&W1).
  assert (aWrap p1 = false) as Hw1.
  { destruct b; [by injection HE as -> ->|]. destruct (aGoal p1); [|done]. apply obind_ok in HE as (ga&_&HE).
    destruct (sG ga =? INFINITECOST); [by injection HE as -> ->|]. by destruct (loop_rest _ _ _ _ _ _ _ _ HE) as (_&W); auto. }
  destruct (W1 Hw1) as [Hw0 Hiter].
  destruct (body_spec fwd con E G e start goal clk b p (S n) L Hiter) as (r'&p1'&n1'&E1'&L1&Hcur&_&Hn&Hle&Hi&_&Heps&_&Hres).
  rewrite E1 in E1'. injection E1' as <- <- <-.
  assert ((forall i, clk i = true) -> gg p1 = INFINITECOST -> exists ep, (ep <= E)%Q /\ no_cheap ep) as Hfail.
  { intros Ht Hinf. destruct Hres as [(_&?)|[(_&_&Hnc)|(_&j&_&Hj)]]; [lia| |by rewrite Ht in Hj].
    exists (aEps p1). split; [|done]. destruct L1 as (P1&_). apply (p_eps _ _ _ _ _ _ P1). }
  destruct b.
  - injection HE as <- <-. done.
  - pose proof L1 as (_&_&_&_&Hg1). rewrite Hg1 in HE. destruct (gcur_rd p1 Hcur) as (ga&Ega&Hga). rewrite Ega in HE. cbn [obind] in HE.
    rewrite Hga in HE. destruct (gg p1 =? INFINITECOST).
    + injection HE as <- <-. done.
    + destruct (IH p1 n1 p' n' L1 HE Hw) as (L2&Hle2&Hc2&Hf2). split_and!; try done; [lia|auto].
Qed.

Lemma sat_cur p : linv p -> Qltb (aFinal p) (aSat p) = false -> gcur p.
Proof.
  intros L Esat. pose proof L as (P&_&Hv&Hs&Hgoal). destruct (linv_search _ _ _ _ _ _ _ p L) as (m&z&I&_&_&J).
  assert (~ (aFinal p < aSat p)%Q) as Hns by (destruct (Qltb_spec (aFinal p) (aSat p)); [discriminate|done]).
  pose proof (p_par _ _ _ _ _ _ P) as (_&?&_). pose proof (p_E _ _ _ _ _ _ P).
  destruct J as [J|(g&Hg&Hc&Hb)]. { rewrite J in Hns. exfalso. apply Hns. lra. }
  rewrite Hgoal in Hg. by injection Hg as <-.
Qed.
(** The loop never fails (as long as no counter overflows) ... *)
Lemma loop_total clk b : forall fuel p n, linv p -> aIter p + Z.of_nat fuel < 65536 ->
  search_loop fuel e clk b p n = OOF \/ exists p' n', search_loop fuel e clk b p n = Ok (p', n') /\ aWrap p' = aWrap p /\ linv p' /\
    (clk n = true \/ gcur p -> gcur p').
Proof.
  induction fuel as [|fuel IH]; intros p n L Hw; [by left|]. rewrite search_loop_eq.
  destruct (Qltb (aFinal p) (aSat p)) eqn:Esat.
  2:{ right. exists p, n. split_and!; try done. intros _. by apply sat_cur. }
  destruct (clk n) eqn:En.
  2:{ right. exists p, (S n). split_and!; try done. by intros [?|?]. }
  destruct (body_spec fwd con E G e start goal clk b p (S n) L) as (r&p1&n1&E1&L1&Hcur&_&Hn&Hle&Hi&Ww&_); [lia|].
  rewrite E1. cbn [obind fst snd]. destruct b. { right. exists p1, n1. done. }
  pose proof L1 as (_&_&_&_&Hg1). rewrite Hg1. destruct (gcur_rd p1 Hcur) as (ga&Ega&Hga). rewrite Ega. cbn [obind].
  destruct (sG ga =? INFINITECOST). { right. exists p1, n1. done. }
  destruct (IH p1 n1 L1) as [?|(p'&n'&?&?&?&Hc)]; [lia|by left|right]. exists p', n'. split_and!; try done; [congruence|]. auto.
Qed.
(** ... and ends when eps has come down. *)
Lemma loop_terminates clk b : (forall i j, (i <= j)%nat -> clk i = false -> clk j = false) ->
  forall k p n fuel, linv p -> (aSat p = aEps p \/ (exists j, (j <= n)%nat /\ clk j = false)) -> (0 < aDec p)%Q ->
  (aEps p - aFinal p <= inject_Z (Z.of_nat k) * aDec p)%Q -> (k < fuel)%nat -> aIter p + Z.of_nat fuel < 65536 ->
  search_loop fuel e clk b p n <> OOF.
Proof.
  intros Hclk. induction k as [|k IH]; intros p n fuel L Hsat Hdec Hk Hf Hw; (destruct fuel as [|fuel]; [lia|]); rewrite search_loop_eq.
  - destruct (Qltb_spec (aFinal p) (aSat p)) as [Hlt|]; [|done]. destruct Hsat as [Hsat|(j&Hj&Ej)].
    + exfalso. rewrite Hsat in Hlt. change (inject_Z (Z.of_nat 0)) with 0%Q in Hk. lra.
    + by rewrite (Hclk j n Hj Ej).
  - destruct (Qltb (aFinal p) (aSat p)) eqn:Ef; [|done]. destruct (clk n) eqn:En; [|done].
    destruct Hsat as [Hsat|(j&Hj&Ej)]; [|by rewrite (Hclk j n Hj Ej) in En].
    destruct (body_spec fwd con E G e start goal clk b p (S n) L) as (r&p1&n1&E1&L1&Hcur&Sr&Hn&Hle&Hi&Ww&Heps&Hsat1&Hres); [lia|].
    rewrite E1. cbn [obind fst snd]. destruct b; [done|].
    pose proof L1 as (_&_&_&_&Hg1). rewrite Hg1. destruct (gcur_rd p1 Hcur) as (ga&Ega&Hga). rewrite Ega. cbn [obind].
    destruct (sG ga =? INFINITECOST) eqn:Einf; [done|].
    pose proof Sr as (_&_&_&_&_&_&_&Ed&Efi).
    apply IH; try done; try lia.
    + destruct Hres as [(->&_)|[(_&?&_)|(_&j&Hj&Ej)]]; [by left|lia|right]. exists j. split; [lia|done].
    + by rewrite Ed.
    + rewrite Ed, Efi, Heps. unfold eps_step. assert (Qltb (Qabs (aSat p - aEps p)) ERR_EPS = true) as ->.
      { destruct (Qltb_spec (Qabs (aSat p - aEps p)) ERR_EPS) as [|Hn0]; [done|]. exfalso. apply Hn0. rewrite Hsat.
        assert (aEps p - aEps p == 0)%Q as -> by ring. reflexivity. }
      cbn [andb negb]. wcbn. replace (Z.of_nat (S k)) with (Z.of_nat k + 1) in Hk by lia. rewrite inject_Z_plus in Hk. change (inject_Z 1) with 1%Q in Hk.
      destruct (Qltb_spec (aEps p - aDec p) (aFinal p)).
      * assert (0 <= inject_Z (Z.of_nat k) * aDec p)%Q by (apply Qmult_le_0_compat; [|lra]; unfold inject_Z, Qle; cbn; lia). lra.
      * lra.
Qed.
Lemma loop_terminates1 clk b : (forall i j, (i <= j)%nat -> clk i = false -> clk j = false) ->
  forall k p n fuel, linv p -> (0 < aDec p)%Q ->
  (aEps p - aFinal p <= inject_Z (Z.of_nat k) * aDec p)%Q -> (S k < fuel)%nat -> aIter p + Z.of_nat fuel < 65536 ->
  search_loop fuel e clk b p n <> OOF.
Proof.
  intros Hclk k p n fuel L Hdec Hk Hf Hw. destruct fuel as [|fuel]; [lia|]. rewrite search_loop_eq.
  destruct (Qltb (aFinal p) (aSat p)) eqn:Ef; [|done]. destruct (clk n) eqn:En; [|done].
  destruct (body_spec fwd con E G e start goal clk b p (S n) L) as (r&p1&n1&E1&L1&Hcur&Sr&Hn&Hle&Hi&Ww&Heps&Hsat1&Hres); [lia|].
  rewrite E1. cbn [obind fst snd]. destruct b; [done|].
  pose proof L1 as (_&_&_&_&Hg1). rewrite Hg1. destruct (gcur_rd p1 Hcur) as (ga&Ega&Hga). rewrite Ega. cbn [obind].
  destruct (sG ga =? INFINITECOST) eqn:Einf; [done|].
  pose proof Sr as (_&_&_&_&_&_&_&Ed&Efi).
  apply (loop_terminates clk false Hclk k); try done; try lia.
  - destruct Hres as [(->&_)|[(_&?&_)|(_&j&Hj&Ej)]]; [by left|lia|right]. exists j. split; [lia|done].
  - by rewrite Ed.
  - assert (0 <= inject_Z (Z.of_nat k) * aDec p)%Q by (apply Qmult_le_0_compat; [|lra]; unfold inject_Z, Qle; cbn; lia).
    rewrite Ed, Efi, Heps. unfold eps_step. destruct (Qltb (Qabs (aSat p - aEps p)) ERR_EPS && negb false); [|done]. wcbn.
    destruct (Qltb_spec (aEps p - aDec p) (aFinal p)); lra.
Qed.
End loop.

(** ** Path extraction *)
Section path.
Context (fwd con : bool) (E : Q) (G : nat -> list (nat * Z)) (e : aenv) (start goal : nat).
Notation linv := (linv fwd con E G e start goal).
Notation gg := (gg fwd e goal).
Notation gcur := (gcur goal).
Lemma linv_bk p : linv p -> bk G e fwd (aCall p) start (aC p).
Proof.
  intros L. destruct (linv_search _ _ _ _ _ _ _ p L) as (m&z&I&_). split.
  - intros s a Ha. by apply (ci_dom _ _ _ _ _ _ _ _ _ _ I s a).
  - intros s. pose proof (ci_g _ _ _ _ _ _ _ _ _ _ I s). lia.
  - intros s. apply (ci_back _ _ _ _ _ _ _ _ _ _ I).
Qed.
Lemma GetSearchPath_spec p : linv p -> gg p < INFINITECOST ->
  exists path c' C, GetSearchPath e p = Ok (path, c') /\ sim (aC p) c' /\
    route (fun x => x) (eedge fwd e) path (if fwd then start else goal) (if fwd then goal else start) C /\ C <= gg p.
Proof.
  intros L Hfin. pose proof L as (P&_&Hv&Hs&Hgoal). pose proof (linv_bk p L) as B.
  assert (sees fwd con G e (Some goal)) as Hse by (rewrite <- Hgoal; apply P).
  assert (forall s t w, (t, w) ∈ G s -> 0 < w) as Hpos by (intros s t w Hw; apply (ge_edge _ _ _ _ (p_ge _ _ _ _ _ _ P) s t w Hw)).
  assert (sG (lk e fwd (aCall p) (aC p) start) = 0) as H0.
  { destruct (linv_search _ _ _ _ _ _ _ p L) as (m&z&I&_). apply I. }
  unfold GetSearchPath. rewrite Hs, Hgoal, (p_fwd _ _ _ _ _ _ P).
  pose proof (below_le e fwd (aCall p) (aC p) goal) as Hb. destruct fwd.
  - destruct (fwd_route G e (aCall p) start goal Hpos (S (eSize e)) goal (aC p) B ltac:(lia) Hfin ltac:(lia)) as (c'&l&C&Er&S&_&HR&HC&Hl).
    rewrite Er. cbn [obind]. rewrite (follow_route G 0 goal c' _ l start C HR) by lia. cbn [obind].
    eexists _, c', C. split; [reflexivity|]. split; [done|]. split; [|unfold AraProofs4.gg; lia].
    destruct (route_head _ _ _ _ _ _ HR) as (l'&->). cbn. eapply route_impl; [|exact HR].
    intros u v w (Hin&Hne&_). unfold eedge, gedge. rewrite (se_edge _ _ _ _ _ Hse); [done|congruence].
  - destruct (bwd_route G e (aCall p) start goal Hpos (aC p) B (S (eSize e)) goal ltac:(lia) Hfin ltac:(lia)) as (l&C&HR&HC&Hl).
    rewrite (follow_route G 0 start (aC p) _ l goal C HR) by lia. cbn [obind].
    eexists _, (aC p), C. split; [reflexivity|]. split; [apply sim_refl|]. split; [|unfold AraProofs4.gg; lia].
    destruct (route_head _ _ _ _ _ _ HR) as (l'&->). cbn. eapply route_impl; [|exact HR].
    intros u v w ((Hin&Hv0)&Hne&_). unfold eedge, gedge. rewrite (se_edge _ _ _ _ _ Hse); [done|congruence].
Qed.
Lemma GetSearchPath_sim p path c' : GetSearchPath e p = Ok (path, c') -> if aFwd p then sim (aC p) c' else c' = aC p.
Proof.
  unfold GetSearchPath. destruct (aStart p) as [s|], (aGoal p) as [g|]; try done. destruct (aFwd p).
  - intros HE. apply obind_ok in HE as (c1&E1&HE). apply obind_ok in HE as (l&_&[= <- <-]). by eapply reconstruct_sim.
  - intros HE. by apply obind_ok in HE as (l&_&[= <- <-]).
Qed.
End path.

(** * Preservation of the invariant *)
Section pres.
Context (fwd con : bool) (E : Q).
Notation pinv := (pinv fwd con E).

(** The environment changes without the planner noticing: the edges stay, the heuristic stays. *)
Lemma pinv_env G e e' p : pinv G e p -> good_env fwd E G e' -> eSize e' = eSize e -> (forall s, heur fwd e' s = heur fwd e s) ->
  sees fwd con G e' (aGoal p) -> pinv G e' p.
Proof.
  intros P Hge Hsz Hh Hse. destruct P. split; try done.
  - intros s a. rewrite Hsz. auto.
  - intros Hr Hg. intros s a Ha. unfold hvalid in p_hv. specialize (p_hv Hr Hg s a Ha). rewrite p_hv. symmetry. apply Hh.
  - intros Hr. destruct (p_search Hr) as (s&m&z&Es&Eg&I&II&K&J). exists s, m, z. split_and!; try done.
    + eapply cinv_sim; [| | | | |exact I]; try done; [lia|intros; apply env_fields|eauto].
    + intros Hn. eapply iinv_sim; [intros; apply env_fields|]. by apply II.
    + intros Hv. eapply kinv_sim; [intros; apply env_fields|done|by apply K].
    + destruct J as [?|(g&?&?&Hb)]; [by left|right]. exists g. split_and!; try done. intros Hc C HC.
      destruct (env_fields fwd e e' (aCall p) (aC p) g) as (_&->&_). auto.
Qed.
(** bestnextstate pointers change (forward search). *)
Lemma pinv_sim G e p c' : fwd = true -> pinv G e p -> sim (aC p) c' -> pinv G e (with_core p c').
Proof.
  intros Hf P S. pose proof S as (S1&S2&S3&S4). destruct P. split; wcbn; try done.
  - rewrite S1, S2. destruct p_rep as (m&z&?&?&?&Hin). exists m, z. split_and!; try done. intros s Hs. destruct (Hin s Hs) as [a Ha].
    destruct (S3 s a Ha) as (b&Hb&_). eauto.
  - intros s a Ha. destruct (sim_dom _ _ _ _ S Ha) as (b&Hb&->). eauto.
  - intros s Hs. destruct (p_start s Hs) as [a Ha]. destruct (S3 s a Ha) as (b&Hb&_). eauto.
  - intros s Hs. destruct (p_goal s Hs) as [a Ha]. destruct (S3 s a Ha) as (b&Hb&_). eauto.
  - intros Hr Hg s a Ha. destruct (cSt (aC p) !! s) as [b|] eqn:Eb; [|rewrite (S4 s Eb) in Ha; done].
    destruct (S3 s b Eb) as (b'&Hb'&(_&_&_&_&_&Hh)). simplify_eq. rewrite Hh. by apply p_hv.
  - intros Hr. destruct (p_search Hr) as (s&m&z&Es&Eg&I&II&K&J). exists s, m, z. split_and!; try done.
    + eapply cinv_sim; [| | | | |exact I]; try done; [intros; by apply sim_fields|intros s' a' Ha'; by eapply sim_dom].
    + intros Hn. eapply iinv_sim; [intros; by apply sim_fields|]. by apply II.
    + intros Hv. eapply kinv_sim; [intros; by apply sim_fields|done|by apply K].
    + destruct J as [?|(g&?&(a&Ha&Hac)&Hb)]; [by left|right]. exists g. wcbn. split_and!; try done.
      * destruct (S3 g a Ha) as (b&Eb&(_&_&_&Hc&_)). exists b. split; [done|congruence].
      * intros Hc C HC. destruct (sim_fields fwd e (aCall p) _ _ g Hf S) as (_&->&_). auto.
Qed.
(** The heuristic values are recomputed. *)
Lemma pinv_hvals G e p : pinv G e p -> aReeval p = true -> pinv G e (with_core p (Reevaluatehvals e fwd (aC p))).
Proof.
  intros P Hr. destruct P. split; wcbn; try done.
  - destruct p_rep as (m&z&?&?&?&Hin). exists m, z. split_and!; try done. intros s Hs. apply hvals_present. auto.
  - intros s a Ha. destruct (hvals_dom _ _ _ _ _ Ha) as (b&Hb&->). eauto.
  - intros s Hs. apply hvals_present. auto.
  - intros s Hs. apply hvals_present. auto.
  - congruence.
  - intros Hi. destruct (p_search Hi) as (s&m&z&Es&Eg&I&II&K&J). exists s, m, z. split_and!; try done.
    + eapply cinv_sim; [| | | | |exact I]; try done; [intros; apply hvals_fields|intros s' a' Ha'; by eapply hvals_dom].
    + intros Hn. eapply iinv_sim; [intros; apply hvals_fields|]. by apply II.
    + congruence.
    + destruct J as [?|(g&?&(a&Ha&Hac)&Hb)]; [by left|right]. exists g. wcbn. split_and!; try done.
      * eexists. cbn. rewrite map_lookup_imap, Ha. cbn. split; [done|]. done.
      * intros Hc C HC. destruct (hvals_fields fwd e (aCall p) (aC p) g) as (_&->&_). auto.
Qed.

(** ** The beginning of Search *)
Definition prep (e : aenv) (p : ara) : ares ara :=
  let p := if aReeval p then with_core p (Reevaluatehvals e (aFwd p) (aC p)) else p in
  if aReinit p then ReInitializeSearchStateSpace e p else Ok p.
Lemma reinit_rest e p p' : ReInitializeSearchStateSpace e p = Ok p' ->
  aWrap p' = aWrap p || (aCall p + 1 >=? 65536) /\ aGoal p' = aGoal p /\ aStart p' = aStart p /\ aFwd p' = aFwd p /\ aFirst p' = aFirst p /\
  aInit p' = aInit p /\ aDec p' = aDec p /\ aFinal p' = aFinal p /\ aGoal p <> None /\ aStart p <> None.
Proof.
  unfold ReInitializeSearchStateSpace. wcbn. intros HE. apply obind_ok in HE as (h&_&HE). apply obind_ok in HE as (l&_&HE). wcbn.
  destruct (aStart p) as [s|] eqn:Es, (aGoal p) as [g|] eqn:Eg; try done.
  apply obind_ok in HE as (c&_&HE). apply obind_ok in HE as (a&_&HE). apply obind_ok in HE as (c'&_&HE). apply obind_ok in HE as (a'&_&HE).
  apply obind_ok in HE as (h'&_&[= <-]). wcbn. split_and!; done.
Qed.
Lemma prep_rest e p p' : prep e p = Ok p' ->
  aGoal p' = aGoal p /\ aStart p' = aStart p /\ aFwd p' = aFwd p /\ aFirst p' = aFirst p /\
  aInit p' = aInit p /\ aDec p' = aDec p /\ aFinal p' = aFinal p /\ (aWrap p' = false -> aWrap p = false /\ (aReinit p = true -> aCall p + 1 < 65536)) /\
  (aReinit p = true -> aGoal p <> None /\ aStart p <> None).
Proof.
  unfold prep. destruct (aReeval p); wcbn; (destruct (aReinit p);
    [intros HE; destruct (reinit_rest _ _ _ HE) as (->&?&?&?&?&?&?&?&?&?); wcbn; split_and!; try done;
     intros Hw; apply orb_false_iff in Hw as [-> Hw]; split; [done|lia]|intros [= <-]; wcbn; done]).
Qed.
Lemma prep_spec G e p : pinv G e p -> (aReinit p = true -> aCall p + 1 < 65536 /\ aStart p <> None /\ aGoal p <> None) ->
  exists p' s g, prep e p = Ok p' /\ aStart p = Some s /\ aGoal p = Some g /\ linv fwd con E G e s g p' /\ aWrap p' = aWrap p /\
    (if aReinit p then aIter p' = 0 /\ aEps p' = aInit p /\ gcur g p' else aIter p' = aIter p /\ aEps p' = aEps p /\ aCall p' = aCall p /\ aSat p' = aSat p /\
      gg fwd e g p' = gg fwd e g p).
Proof.
  intros P Hi. set (p0 := if aReeval p then with_core p (Reevaluatehvals e (aFwd p) (aC p)) else p).
  assert (pinv G e p0 /\ (aGoal p <> None -> hvalid e fwd (aC p0)) /\ aReinit p0 = aReinit p /\ aStart p0 = aStart p /\ aGoal p0 = aGoal p /\ aCall p0 = aCall p /\
    aWrap p0 = aWrap p /\ aInit p0 = aInit p /\ aIter p0 = aIter p /\ aEps p0 = aEps p /\ aSat p0 = aSat p /\
    (forall g, gg fwd e g p0 = gg fwd e g p)) as (P0&Hv0&Q1&Q2&Q3&Q4&Q5&Q6&Q7&Q8&Q9&Q10).
  { unfold p0. destruct (aReeval p) eqn:Er.
    - rewrite (p_fwd _ _ _ _ _ _ P). split; [by apply pinv_hvals|]. wcbn. split_and!; try done; [intros _; apply hvals_valid|].
      intros g. unfold gg. wcbn. by destruct (hvals_fields fwd e (aCall p) (aC p) g) as (_&->&_).
    - split_and!; try done. intros Hg. by apply P. }
  unfold prep. fold p0. clearbody p0. rewrite Q1. destruct (aReinit p) eqn:Ei.
  - destruct (Hi eq_refl) as (Hc&Hs&Hg). destruct (aStart p) as [s|] eqn:Es; [|done]. destruct (aGoal p) as [g|] eqn:Eg; [|done].
    destruct (reinit_spec fwd con E G e p0 s g P0) as (p'&Er&P'&R1&R2&R3&R4&R5&R6&R7&R8&R9&R10&R11&R12&R13&R14&R15&R16&R17); [done|done|by apply Hv0|lia|].
    exists p', s, g. split_and!; try done; try congruence.
  - destruct (p_search _ _ _ _ _ _ P0) as (s&m&z&Es&Eg&_); [done|]. destruct (aGoal p0) as [g|] eqn:Eg0; [|done].
    exists p0, s, g. split_and!; try done; try congruence. split_and!; try done; try congruence. apply Hv0. congruence.
Qed.
End pres.
