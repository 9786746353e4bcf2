(** Path extraction, the beginning of Search, Search as a whole (AD-star). *)
From Coq Require Import ZifyBool ZifyNat QArith Qround Lqa.
From Verif Require Import Base KeyModel HeapModel HeapProofs ListModel ListProofs ListSpec AngleModel AngleProofs AraModel AraSpec AraProofs AraPath AraProofs3 AraProofs4 AdModel AdSpec AdAbs AdProofs AdProofs2 AdProofs3 AdPath AdProofs4 AdProofs5 AdProofs6.
Local Open Scope Z_scope.

Lemma ad_reconstruct_sim start : forall n s c r c', ad_reconstruct n start s c = Ok (r, c') -> sim c c'.
Proof.
  induction n as [|n IH]; intros s c r c'; cbn [ad_reconstruct].
  - destruct (s =? start)%nat; intros [= <- <-]; apply sim_refl.
  - destruct (s =? start)%nat; [intros [= <- <-]; apply sim_refl|].
    unfold rdst at 1. destruct (cSt c !! s) as [a|] eqn:Ea; [|done]. cbn [dlift obind].
    destruct (sG a =? INFINITECOST); [intros [= <- <-]; apply sim_refl|]. destruct (sPred a) as [pr|]; [|done].
    unfold rdst. destruct (cSt c !! pr) as [b|] eqn:Eb; [|done]. cbn [dlift obind]. destruct (sV b >=? sG a); [done|].
    intros HE. eapply sim_trans; [|by eapply IH]. by apply sim_set.
Qed.
Lemma ad_path_sim p path c' : ad_path p = Ok (path, c') -> if aFwd p then sim (aC p) c' else c' = aC p.
Proof.
  unfold ad_path. generalize max_steps. intros ms. destruct (aStart p) as [s|], (aGoal p) as [g|]; try done. destruct (aFwd p).
  - intros HE. apply obind_ok in HE as ([r c1]&E1&HE). cbn [fst snd] in HE. apply ad_reconstruct_sim in E1. destruct (negb (r =? 1)).
    + by injection HE as <- <-.
    + by apply obind_ok in HE as (l&_&[= <- <-]).
  - intros HE. by apply obind_ok in HE as (l&_&[= <- <-]).
Qed.

Section pres.
Context (fwd abs : bool) (E : Q).
Notation pinv := (dpinv fwd abs E).

(** The environment changes without the planner noticing: the edges stay, the heuristic stays. *)
Lemma dpinv_env G e e' p : pinv G e p -> good_env fwd E G e' -> eSize e' = eSize e -> (forall s, heur fwd e' s = heur fwd e s) ->
  dsees fwd abs G e' (aStart p) (aGoal p) -> pinv G e' p.
Proof.
  intros P Hge Hsz Hh Hse. destruct P. split; try done.
  - intros s a. rewrite Hsz. auto.
  - intros Hr Hg. intros s a Ha. unfold hvalid in p_hv. specialize (p_hv Hr Hg s a Ha). rewrite p_hv. symmetry. apply Hh.
  - intros Hr. destruct (p_search Hr) as (s&g&m&z&Es&Eg&Q). exists s, g, m, z. split; [done|]. split; [done|].
    pose proof (q_dat _ _ _ _ _ _ _ _ _ _ Q) as D. eapply (sst_sim fwd abs E G e e' s g p); try done; try apply D.
    + intros; apply env_fields.
    + intros u a. rewrite Hsz. auto.
    + intros Hv. split; [done|]. intros u Hu. destruct (da_cur _ _ _ _ _ _ _ _ _ D u (or_introl Hu)) as (a&Ea&Ec).
      by rewrite !(lk_current _ _ _ _ _ a Ea Ec).
    + by right.
Qed.
(** bestnextstate pointers change (forward search). *)
Lemma dpinv_sim G e p c' : fwd = true -> pinv G e p -> sim (aC p) c' -> pinv G e (with_core p c').
Proof.
  intros Hf P S. pose proof S as (S1&S2&S3&S4). destruct P. split; wcbn; try done.
  - rewrite S1, S2. destruct p_rep as (m&z&?&?&?&Hin). exists m, z. split_and!; try done. intros s Hs. destruct (Hin s Hs) as [a Ha].
    destruct (S3 s a Ha) as (b&Hb&_). eauto.
  - intros s a Ha. destruct (sim_dom _ _ _ _ S Ha) as (b&Hb&->). eauto.
  - intros s Hs. destruct (p_start s Hs) as [a Ha]. destruct (S3 s a Ha) as (b&Hb&_). eauto.
  - intros s Hs. destruct (p_goal s Hs) as [a Ha]. destruct (S3 s a Ha) as (b&Hb&_). eauto.
  - intros Hr Hg s a Ha. destruct (cSt (aC p) !! s) as [b|] eqn:Eb; [|rewrite (S4 s Eb) in Ha; done].
    destruct (S3 s b Eb) as (b'&Hb'&(_&_&_&_&_&Hh)). simplify_eq. rewrite Hh. by apply p_hv.
  - intros Hr. destruct (p_search Hr) as (s&g&m&z&Es&Eg&Q). exists s, g, m, z. split; [done|]. split; [done|].
    pose proof (q_dat _ _ _ _ _ _ _ _ _ _ Q) as D. eapply (sst_sim fwd abs E G e e s g p); wcbn; rewrite ?S1, ?S2; try done; try apply D.
    + intros; by apply sim_fields.
    + intros u a Ha. destruct (sim_dom _ _ _ _ S Ha) as (b&Hb&->). eauto.
    + intros u (a&Ha&Hc). destruct (S3 u a Ha) as (b&Eb&(_&_&_&Hcb&_)). exists b. split; [done|congruence].
    + intros Hv. split; [done|]. intros u _. by apply (sim_lk e fwd (aCall p) (aC p) c' u S).
    + by right.
Qed.
(** The heuristic values are recomputed. *)
Lemma dpinv_hvals G e p : pinv G e p -> aReeval p = true -> pinv G e (with_core p (Reevaluatehvals e fwd (aC p))).
Proof.
  intros P Hr. destruct P. split; wcbn; try done.
  - destruct p_rep as (m&z&?&?&?&Hin). exists m, z. split_and!; try done. intros s Hs. apply hvals_present. auto.
  - intros s a Ha. destruct (hvals_dom _ _ _ _ _ Ha) as (b&Hb&->). eauto.
  - intros s Hs. apply hvals_present. auto.
  - intros s Hs. apply hvals_present. auto.
  - congruence.
  - intros Hi. destruct (p_search Hi) as (s&g&m&z&Es&Eg&Q). exists s, g, m, z. split; [done|]. split; [done|].
    pose proof (q_dat _ _ _ _ _ _ _ _ _ _ Q) as D. eapply (sst_sim fwd abs E G e e s g p); wcbn; try done; try apply D.
    + intros; apply hvals_fields.
    + intros u a Ha. destruct (hvals_dom _ _ _ _ _ Ha) as (b&Hb&->). eauto.
    + intros u (a&Ha&Hc). eexists. cbn. rewrite map_lookup_imap, Ha. cbn. split; [done|]. done.
    + congruence.
    + by right.
Qed.

(** ** The beginning of Search *)
Definition dprep (e : aenv) (p : ara) : dres ara :=
  let p := if aReeval p then with_core p (Reevaluatehvals e (aFwd p) (aC p)) else p in
  if aReinit p then ad_reinit e p else Ok p.
Lemma reinit_rest e p p' : ad_reinit e p = Ok p' ->
  aWrap p' = aWrap p || (aCall p + 1 >=? 65536) /\ aGoal p' = aGoal p /\ aStart p' = aStart p /\ aFwd p' = aFwd p /\ aFirst p' = aFirst p /\
  aInit p' = aInit p /\ aDec p' = aDec p /\ aFinal p' = aFinal p /\ aStart p <> None.
Proof.
  unfold ad_reinit. wcbn. intros HE. apply obind_ok in HE as (h&_&HE). apply obind_ok in HE as (l&_&HE). wcbn.
  destruct (aStart p) as [s|] eqn:Es; try done.
  apply obind_ok in HE as (c&_&HE). apply obind_ok in HE as (a&_&HE).
  apply obind_ok in HE as (h'&_&[= <-]). wcbn. split_and!; done.
Qed.
Lemma prep_rest e p p' : dprep e p = Ok p' ->
  aGoal p' = aGoal p /\ aStart p' = aStart p /\ aFwd p' = aFwd p /\ aFirst p' = aFirst p /\
  aInit p' = aInit p /\ aDec p' = aDec p /\ aFinal p' = aFinal p /\ (aWrap p' = false -> aWrap p = false /\ (aReinit p = true -> aCall p + 1 < 65536)) /\
  (aReinit p = true -> aStart p <> None).
Proof.
  unfold dprep. destruct (aReeval p); wcbn; (destruct (aReinit p);
    [intros HE; destruct (reinit_rest _ _ _ HE) as (->&?&?&?&?&?&?&?&?); wcbn; split_and!; try done;
     intros Hw; apply orb_false_iff in Hw as [-> Hw]; split; [done|lia]|intros [= <-]; wcbn; done]).
Qed.
Lemma prep_spec G e p : pinv G e p -> (aReinit p = true -> aCall p + 1 < 65536 /\ aStart p <> None /\ aGoal p <> None) ->
  exists p' s g, dprep e p = Ok p' /\ aStart p = Some s /\ aGoal p = Some g /\ dlinv fwd abs E G e s g p' /\ aWrap p' = aWrap p /\
    (if aReinit p then aIter p' = 0 /\ aEps p' = aInit p else aIter p' = aIter p /\ aEps p' = aEps p).
Proof.
  intros P Hi. set (p0 := if aReeval p then with_core p (Reevaluatehvals e (aFwd p) (aC p)) else p).
  assert (pinv G e p0 /\ (aGoal p <> None -> hvalid e fwd (aC p0)) /\ aReinit p0 = aReinit p /\ aStart p0 = aStart p /\ aGoal p0 = aGoal p /\ aCall p0 = aCall p /\
    aWrap p0 = aWrap p /\ aInit p0 = aInit p /\ aIter p0 = aIter p /\ aEps p0 = aEps p /\ aSat p0 = aSat p) as (P0&Hv0&Q1&Q2&Q3&Q4&Q5&Q6&Q7&Q8&Q9).
  { unfold p0. destruct (aReeval p) eqn:Er.
    - rewrite (p_fwd _ _ _ _ _ _ P). split; [by apply dpinv_hvals|]. wcbn. split_and!; try done; intros _; apply hvals_valid.
    - split_and!; try done. intros Hg. by apply P. }
  unfold dprep. fold p0. clearbody p0. rewrite Q1. destruct (aReinit p) eqn:Ei.
  - destruct (Hi eq_refl) as (Hc&Hs&Hg). destruct (aStart p) as [s|] eqn:Es; [|done]. destruct (aGoal p) as [g|] eqn:Eg; [|done].
    destruct (reinit_spec fwd abs E G e p0 s g P0) as (p'&Er&P'&R1&R2&R3&R4&R5&R6&R7&R8&R9&R10&R11&R12&R13&R14&R15&R16); [done|done|by apply Hv0|lia|].
    exists p', s, g. split_and!; try done; try congruence.
  - destruct (p_search _ _ _ _ _ _ P0) as (s&g&m&z&Es&Eg&_); [done|].
    exists p0, s, g. split_and!; try done; try congruence. split_and!; try done; try congruence. apply Hv0. congruence.
Qed.
End pres.

Definition dfinish (p : ara) : dres (bool * list nat * Z * ara) :=
  match aGoal p with
  | None => UB
  | Some g =>
    do ga <- dlift DBadState (rdst (aC p) g);
    if (sG ga =? INFINITECOST) || Qeq_bool (aSat p) (inject_Z INFINITECOST) then Ok (false, [], sG ga, p)
    else do r <- ad_path p; Ok (true, r.1, sG ga, with_core p r.2)
  end.
Lemma Search_eq fuel e clk p : ad_Search fuel e clk p = (do p <- dprep e p; do r <- ad_search_loop fuel e clk (aFirst p) p 0; dfinish r.1).
Proof. unfold ad_Search, dprep. destruct (aReeval p); wcbn; destruct (aReinit p); done. Qed.

Section search.
Context (fwd abs : bool) (E : Q) (G : nat -> list (nat * Z)) (e : aenv).
Notation pinv := (dpinv fwd abs E G e).

Lemma finish_rest p r p' : dfinish p = Ok (r, p') -> p' = p \/ exists c', p' = with_core p c' /\ if aFwd p then sim (aC p) c' else c' = aC p.
Proof.
  unfold dfinish. destruct (aGoal p); [|done]. intros HE. apply obind_ok in HE as (ga&_&HE).
  destruct ((sG ga =? INFINITECOST) || _); [injection HE as <- <-; by left|]. apply obind_ok in HE as ([l c]&Ep&[= <- <-]). right. exists c.
  split; [done|]. by eapply ad_path_sim.
Qed.
Lemma Search_rest fuel clk p r p' : ad_Search fuel e clk p = Ok (r, p') ->
  aGoal p' = aGoal p /\ aStart p' = aStart p /\ aFwd p' = aFwd p /\ aInit p' = aInit p /\ aDec p' = aDec p /\ aFinal p' = aFinal p /\
  (aWrap p' = false -> aWrap p = false) /\ (aGoal p <> None).
Proof.
  rewrite Search_eq. intros HE. apply obind_ok in HE as (p1&E1&HE). apply obind_ok in HE as ([p2 n2]&E2&HE). cbn [fst] in HE.
  destruct (prep_rest _ _ _ E1) as (?&?&?&?&?&?&?&W1&_). destruct (loop_rest _ _ _ _ _ _ _ _ E2) as ((?&?&?&?&?&?&?&?&?)&W2).
  assert (aGoal p2 <> None) as Hg. { unfold dfinish in HE. by destruct (aGoal p2). }
  destruct (finish_rest _ _ _ HE) as [->|(c'&->&_)]; wcbn; split_and!; try congruence; intros Hw; by apply W1, W2.
Qed.

(** The result of Search, for a planner that satisfies the invariant. *)
Definition route_to (s g : nat) (l : list nat) (C : Z) : Prop :=
  route (fun x => x) (fun u v w => gedge fwd G u v w /\ (if fwd then u else v) <> g) l (if fwd then s else g) (if fwd then g else s) C.
Lemma finish_spec s g p : dlinv fwd abs E G e s g p ->
  exists b path cost p', dfinish p = Ok (b, path, cost, p') /\ aWrap p' = aWrap p /\ aSat p' = aSat p /\ pinv p' /\ aReinit p' = false /\
    (b = true <-> aSat p <> INFQ) /\
    (b = true -> (1 <= aSat p <= E)%Q /\ (exists l C, path = clip l /\ route_to s g l C /\ C <= cost) /\ cost < INFINITECOST /\
       forall C, sr G (inflate (aSat p)) s g C -> cost <= C) /\ (b = false -> path = []).
Proof.
  intros L. pose proof L as (P&Hr&Hv&Hs&Hg). unfold dfinish. rewrite Hg. pose proof (p_E _ _ _ _ _ _ P) as PE.
  destruct (linv_search _ _ _ _ _ _ _ p L) as (m&z&Q).
  assert (aSat p = INFQ \/ aSat p <> INFQ) as [Hsat|Hsat].
  { destruct (q_sat _ _ _ _ _ _ _ _ _ _ Q) as [?|(T1&_)]; [by left|right]. intros Hx. rewrite Hx in T1. lra. }
  - destruct (p_goal _ _ _ _ _ _ P g Hg) as [ga Ega]. unfold rdst. rewrite Ega. cbn [dlift obind].
    assert (Qeq_bool (aSat p) (inject_Z INFINITECOST) = true) as -> by (rewrite Hsat; by apply Qeq_bool_iff). rewrite orb_true_r.
    eexists _, _, _, p. split; [reflexivity|]. split_and!; try done.
  - destruct (sat_facts fwd abs E G e s g p L Hsat) as (T1&T2&T3&T4&T5). destruct (gcur_rd fwd G e g p T2) as (ga&Ega&Hga). rewrite Ega. cbn [obind].
    rewrite Hga. destruct (gg fwd e g p =? INFINITECOST) eqn:Ei; [lia|].
    assert (Qeq_bool (aSat p) (inject_Z INFINITECOST) = false) as ->.
    { destruct (Qeq_bool _ _) eqn:Eq; [|done]. apply Qeq_bool_iff in Eq. fold INFQ in Eq. rewrite Eq in T1. lra. }
    cbn [orb]. destruct (linv_env _ _ _ _ _ _ _ p L) as (A1&_).
    destruct (ad_path_spec G e fwd (aCall p) s g p) as (l&c'&C&Ep&Sm&HR&HC); [apply Q|by eapply Gp|done|apply P|done|done|].
    rewrite Ep. cbn [obind fst snd]. eexists _, _, _, _. split; [reflexivity|]. wcbn. split_and!; try done.
    + destruct fwd eqn:Ef; [by apply dpinv_sim|]. subst c'. by destruct p.
    + intros _. split_and!; try done; try lra. exists l, C. done.
Qed.
Lemma Search_spec fuel clk p b path cost p' : pinv p -> ad_Search fuel e clk p = Ok (b, path, cost, p') -> aWrap p' = false ->
  pinv p' /\ aReinit p' = false /\ exists s g, aStart p = Some s /\ aGoal p = Some g /\ (b = true <-> aSat p' <> INFQ) /\
      (b = true -> (1 <= aSat p' <= E)%Q /\ (exists l C, path = clip l /\ route_to s g l C /\ C <= cost) /\ cost < INFINITECOST /\
         forall C, sr G (inflate (aSat p')) s g C -> cost <= C) /\
      (b = false -> path = [] /\ ((forall i, clk i = true) -> exists ep, (ep <= E)%Q /\ no_cheap G s g ep)).
Proof.
  intros P HE Hw. destruct (Search_rest _ _ _ _ _ HE) as (_&_&_&_&_&_&_&Hgn). rewrite Search_eq in HE.
  apply obind_ok in HE as (p1&E1&HE). apply obind_ok in HE as ([p2 n2]&E2&HE). cbn [fst] in HE.
  destruct (prep_rest _ _ _ E1) as (_&_&_&_&_&_&_&W1&Hset). destruct (loop_rest _ _ _ _ _ _ _ _ E2) as (S2&W2).
  assert (aWrap p2 = false) as Hw2 by (destruct (finish_rest _ _ _ HE) as [->|(c'&->&_)]; wcbn; done).
  destruct (prep_spec fwd abs E G e p P) as (p1'&s&g&E1'&Es&Eg&L1&_&_).
  { intros Hr. split; [by apply W1; auto|]. split; [auto|done]. }
  rewrite E1 in E1'. injection E1' as <-.
  destruct (loop_spec fwd abs E G e s g clk _ fuel p1 0 p2 n2 L1 E2 Hw2) as (L2&Hfail).
  destruct (finish_spec s g p2 L2) as (b'&path'&cost'&p''&E'&_&Es'&P'&Hr'&Hb&Ht&Hf). rewrite HE in E'. injection E' as <- <- <- <-.
  rewrite Es'. split; [done|]. split; [done|]. exists s, g. split; [done|]. split; [done|]. split; [done|]. split; [done|].
  intros ->. split; [auto|]. intros Hc. destruct (Hfail Hc) as [Hx|?]; [|done]. by apply Hb in Hx.
Qed.

(** Search neither throws nor has undefined behaviour, and it ends. *)
Lemma Search_total fuel clk p s g k : pinv p -> aStart p = Some s -> aGoal p = Some g ->
  (forall i j, (i <= j)%nat -> clk i = false -> clk j = false) ->
  (aReinit p = true -> aCall p + 1 < 65536) -> (if aReinit p then 0 else aIter p) + 2 * Z.of_nat fuel < 65536 ->
  (0 < aDec p)%Q -> ((if aReinit p then aInit p else aEps p) - aFinal p <= inject_Z (Z.of_nat k) * aDec p)%Q -> (S k < fuel)%nat ->
  exists r p', ad_Search fuel e clk p = Ok (r, p') /\ aWrap p' = aWrap p.
Proof.
  intros P Es Eg Hmon Hcall Hf Hdec Hk Hkf.
  destruct (prep_spec fwd abs E G e p P) as (p1&s'&g'&E1&Es'&Eg'&L1&Hw1&Hprep).
  { intros Hr. split; [auto|]. rewrite Es, Eg. done. }
  rewrite Es in Es'. rewrite Eg in Eg'. injection Es' as <-. injection Eg' as <-.
  destruct (prep_rest _ _ _ E1) as (Hg1&Hs1&_&Hfi1&_&Hd1&Hf1&_).
  rewrite Search_eq, E1. cbn [obind].
  assert (aIter p1 + 2 * Z.of_nat fuel < 65536) as Hi1 by (destruct (aReinit p); destruct Hprep as (->&_); lia).
  assert (aEps p1 - aFinal p1 <= inject_Z (Z.of_nat k) * aDec p1)%Q as Hk1.
  { rewrite Hd1, Hf1. destruct (aReinit p); destruct Hprep as (_&->); done. }
  destruct (loop_total fwd abs E G e s g clk (aFirst p1) fuel p1 0 L1 Hi1) as [HO|(p2&n2&E2&Hw2&L2)].
  { exfalso. eapply (loop_terminates1 fwd abs E G e s g clk (aFirst p1) Hmon k p1 0 fuel); try done. by rewrite Hd1. }
  rewrite E2. cbn [obind fst]. destruct (finish_spec s g p2 L2) as (b'&path'&cost'&p''&E'&Hw'&_). rewrite E'.
  eexists _, _. split; [reflexivity|]. congruence.
Qed.
End search.
