(** Search as a whole, and all reachable worlds. *)
From Coq Require Import ZifyBool ZifyNat QArith Qround Lqa.
From Verif Require Import Base KeyModel HeapModel HeapProofs ListModel ListProofs AngleModel AngleProofs AraModel AraSpec AraProofs AraProofs2 AraPath AraProofs3 AraProofs4 AraProofs5.
Local Open Scope Z_scope.

Definition finish (e : aenv) (p : ara) : ares (bool * list nat * Z * ara) :=
  match aGoal p with
  | None => UB
  | Some g =>
    do ga <- rdst (aC p) g;
    if sG ga =? INFINITECOST then Ok (false, [], sG ga, p)
    else do r <- GetSearchPath e p; Ok (true, r.1, sG ga, with_core p r.2)
  end.
Lemma Search_eq fuel e clk p : Search fuel e clk p = (do p <- prep e p; do r <- search_loop fuel e clk (aFirst p) p 0; finish e r.1).
Proof. unfold Search, prep. destruct (aReeval p); wcbn; destruct (aReinit p); done. Qed.

Section search.
Context (fwd con : bool) (E : Q) (G : nat -> list (nat * Z)) (e : aenv).
Notation pinv := (pinv fwd con E G e).

Lemma finish_rest p r p' : finish e p = Ok (r, p') -> p' = p \/ exists c', p' = with_core p c' /\ if aFwd p then sim (aC p) c' else c' = aC p.
Proof.
  unfold finish. destruct (aGoal p); [|done]. intros HE. apply obind_ok in HE as (ga&_&HE).
  destruct (sG ga =? INFINITECOST); [injection HE as <- <-; by left|]. apply obind_ok in HE as ([l c]&Ep&[= <- <-]). right. exists c.
  split; [done|]. by eapply GetSearchPath_sim.
Qed.
Lemma Search_rest fuel clk p r p' : Search fuel e clk p = Ok (r, p') ->
  aGoal p' = aGoal p /\ aStart p' = aStart p /\ aFwd p' = aFwd p /\ aInit p' = aInit p /\ aDec p' = aDec p /\ aFinal p' = aFinal p /\
  (aWrap p' = false -> aWrap p = false).
Proof.
  rewrite Search_eq. intros HE. apply obind_ok in HE as (p1&E1&HE). apply obind_ok in HE as ([p2 n2]&E2&HE). cbn [fst] in HE.
  destruct (prep_rest _ _ _ E1) as (?&?&?&?&?&?&?&W1&_). destruct (loop_rest _ _ _ _ _ _ _ _ E2) as ((?&?&?&?&?&?&?&?&?)&W2).
  destruct (finish_rest _ _ _ HE) as [->|(c'&->&_)]; wcbn; split_and!; try congruence; intros Hw; by apply W1, W2.
Qed.

(** The result of Search, for a planner that satisfies the invariant. *)
Lemma Search_spec fuel clk p b path cost p' : pinv p -> Search fuel e clk p = Ok (b, path, cost, p') -> aWrap p' = false ->
  pinv p' /\ aReinit p' = false /\ exists s g, aStart p = Some s /\ aGoal p = Some g /\
    (clk 0%nat = true ->
      (b = true -> exists C, route (fun x => x) (eedge fwd e) path (if fwd then s else g) (if fwd then g else s) C /\ C <= cost) /\
      cost <= INFINITECOST /\ (b = true <-> cost < INFINITECOST) /\
      (con = true -> forall C, aSat p' <> INFQ -> sr G (inflate (aSat p')) s g C -> cost <= C) /\
      ((forall i, clk i = true) -> b = false -> exists ep, (ep <= E)%Q /\ no_cheap con G s g ep) /\
      (aReinit p = false -> cost <= gg fwd e g p) /\ gcur g p' /\ cost = gg fwd e g p').
Proof.
  rewrite Search_eq. intros P HE Hw. apply obind_ok in HE as (p1&E1&HE). apply obind_ok in HE as ([p2 n2]&E2&HE). cbn [fst] in HE.
  destruct (prep_rest _ _ _ E1) as (_&_&_&_&_&_&_&W1&Hset). destruct (loop_rest _ _ _ _ _ _ _ _ E2) as (S2&W2).
  assert (aWrap p2 = false) as Hw2 by (destruct (finish_rest _ _ _ HE) as [->|(c'&->&_)]; wcbn; done).
  destruct (prep_spec fwd con E G e p P) as (p1'&s&g&E1'&Es&Eg&L1&_&Hprep).
  { intros Hr. split; [by apply W1; auto|]. destruct (Hset Hr). done. }
  rewrite E1 in E1'. injection E1' as <-.
  destruct (loop_spec fwd con E G e s g clk _ fuel p1 0 p2 n2 L1 E2 Hw2) as (L2&Hle&Hcur&Hfail).
  pose proof L2 as (P2&Hr2&Hv2&Hs2&Hg2).
  assert (pinv p' /\ aReinit p' = false) as [P' Hr'].
  { destruct (finish_rest _ _ _ HE) as [->|(c'&->&Hc)]; [done|]. rewrite (p_fwd _ _ _ _ _ _ P2) in Hc. split; [|done]. destruct fwd eqn:Ef.
    - by apply pinv_sim.
    - subst c'. by destruct p2. }
  split; [done|]. split; [done|]. exists s, g. split; [done|]. split; [done|]. intros Hclk.
  specialize (Hcur (or_introl Hclk)). destruct (gcur_rd fwd G e g p2 Hcur) as (ga&Ega&Hga).
  destruct (linv_search _ _ _ _ _ _ _ p2 L2) as (m&z&I&_&_&J).
  assert (gg fwd e g p2 <= INFINITECOST) as Hmax.
  { pose proof (ci_g _ _ _ _ _ _ _ _ _ _ I g). unfold gg. lia. }
  unfold finish in HE. rewrite Hg2, Ega in HE. cbn [obind] in HE. rewrite Hga in HE.
  assert (con = true -> forall C, aSat p2 <> INFQ -> sr G (inflate (aSat p2)) s g C -> gg fwd e g p2 <= C) as Hb.
  { intros Hcon C Hn HC. destruct J as [?|(g'&Hg'&_&Hb)]; [done|]. rewrite Hg2 in Hg'. injection Hg' as <-. by apply Hb. }
  assert (aReinit p = false -> gg fwd e g p2 <= gg fwd e g p) as Hmono.
  { intros Hr. rewrite Hr in Hprep. destruct Hprep as (_&_&_&_&<-). done. }
  destruct (gg fwd e g p2 =? INFINITECOST) eqn:Einf.
  - injection HE as <- <- <- <-. split_and!; try done; [split; [done|lia]|]. intros Ht _. apply Hfail; [done|lia].
  - destruct (GetSearchPath_spec fwd con E G e s g p2 L2) as (l&c'&C&Ep&Sm&HR&HC); [lia|]. rewrite Ep in HE. injection HE as <- <- <- <-.
    assert (sG (lk e fwd (aCall p2) c' g) = sG (lk e fwd (aCall p2) (aC p2) g)) as Eq by apply (sim_lk e fwd (aCall p2) (aC p2) c' g Sm).
    wcbn. split_and!; try done; [eauto|split; [lia|done]|].
    + destruct Hcur as (a&Ha&Hc). destruct Sm as (_&_&S3&_). destruct (S3 g a Ha) as (a'&Ha'&(_&_&_&Hca&_)). exists a'. wcbn. split; [done|congruence].
Qed.

Lemma Search_linv fuel clk p r p' s g : pinv p -> Search fuel e clk p = Ok (r, p') -> aWrap p' = false ->
  aStart p = Some s -> aGoal p = Some g -> linv fwd con E G e s g p'.
Proof.
  rewrite Search_eq. intros P HE Hw Hs Hg. apply obind_ok in HE as (p1&E1&HE). apply obind_ok in HE as ([p2 n2]&E2&HE). cbn [fst] in HE.
  destruct (prep_rest _ _ _ E1) as (_&_&_&_&_&_&_&W1&Hset). destruct (loop_rest _ _ _ _ _ _ _ _ E2) as (S2&W2).
  assert (aWrap p2 = false) as Hw2 by (destruct (finish_rest _ _ _ HE) as [->|(c'&->&_)]; wcbn; done).
  destruct (prep_spec fwd con E G e p P) as (p1'&s'&g'&E1'&Es&Eg&L1&_&Hprep).
  { intros Hr. split; [by apply W1; auto|]. destruct (Hset Hr). done. }
  rewrite E1 in E1'. injection E1' as <-. rewrite Hs in Es. injection Es as <-. rewrite Hg in Eg. injection Eg as <-.
  destruct (loop_spec fwd con E G e s g clk _ fuel p1 0 p2 n2 L1 E2 Hw2) as (L2&_).
  pose proof L2 as (P2&Hr2&Hv2&Hs2&Hg2).
  destruct (finish_rest _ _ _ HE) as [->|(c'&->&Hc)]; [done|]. rewrite (p_fwd _ _ _ _ _ _ P2) in Hc.
  destruct fwd eqn:Ef.
  - split_and!; try done; [by apply pinv_sim|]. destruct Hc as (_&_&H3&H4). wcbn. intros u a Ha.
    destruct (cSt (aC p2) !! u) as [a0|] eqn:E0; [|rewrite (H4 u E0) in Ha; discriminate].
    destruct (H3 u a0 E0) as (a'&Ea&(_&_&_&_&_&Hh)). rewrite Ha in Ea. injection Ea as <-. rewrite Hh. by apply Hv2.
  - subst c'. by destruct p2.
Qed.

(** Search neither throws nor has undefined behaviour, and it ends. *)
Lemma Search_total fuel clk p s g k : pinv p -> aStart p = Some s -> aGoal p = Some g -> clk 0%nat = true ->
  (forall i j, (i <= j)%nat -> clk i = false -> clk j = false) ->
  (aReinit p = true -> aCall p + 1 < 65536) -> (if aReinit p then 0 else aIter p) + Z.of_nat fuel < 65536 ->
  (0 < aDec p)%Q -> ((if aReinit p then aInit p else aEps p) - aFinal p <= inject_Z (Z.of_nat k) * aDec p)%Q -> (S k < fuel)%nat ->
  exists r p', Search fuel e clk p = Ok (r, p') /\ aWrap p' = aWrap p.
Proof.
  intros P Es Eg Hclk Hmon Hcall Hf Hdec Hk Hkf.
  destruct (prep_spec fwd con E G e p P) as (p1&s'&g'&E1&Es'&Eg'&L1&Hw1&Hprep).
  { intros Hr. split; [auto|]. rewrite Es, Eg. done. }
  rewrite Es in Es'. rewrite Eg in Eg'. injection Es' as <-. injection Eg' as <-.
  destruct (prep_rest _ _ _ E1) as (Hg1&Hs1&_&Hfi1&_&Hd1&Hf1&_).
  rewrite Search_eq, E1. cbn [obind].
  assert (aIter p1 + Z.of_nat fuel < 65536) as Hi1 by (destruct (aReinit p); destruct Hprep as (->&_); lia).
  assert (aEps p1 - aFinal p1 <= inject_Z (Z.of_nat k) * aDec p1)%Q as Hk1.
  { rewrite Hd1, Hf1. destruct (aReinit p); destruct Hprep as (_&->&_); done. }
  destruct (loop_total fwd con E G e s g clk (aFirst p1) fuel p1 0 L1 Hi1) as [HO|(p2&n2&E2&Hw2&L2&Hcur)].
  { exfalso. eapply (loop_terminates1 fwd con E G e s g clk (aFirst p1) Hmon k p1 0 fuel); try done. by rewrite Hd1. }
  rewrite E2. cbn [obind fst]. specialize (Hcur (or_introl Hclk)).
  destruct (gcur_rd fwd G e g p2 Hcur) as (ga&Ega&Hga). pose proof L2 as (P2&Hr2&Hv2&Hs2&Hg2).
  unfold finish. rewrite Hg2, Ega. cbn [obind]. rewrite Hga. destruct (gg fwd e g p2 =? INFINITECOST) eqn:Einf.
  - eexists _, p2. split; [reflexivity|]. congruence.
  - destruct (GetSearchPath_spec fwd con E G e s g p2 L2) as (l&c'&C&Ep&Sm&HR&HC).
    { destruct (linv_search _ _ _ _ _ _ _ p2 L2) as (m&z&I&_). pose proof (ci_g _ _ _ _ _ _ _ _ _ _ I g). unfold gg in *. lia. }
    rewrite Ep. cbn [obind fst snd]. eexists _, _. split; [reflexivity|]. wcbn. congruence.
Qed.
End search.

(** * The other operations *)
Section ops.
Context (fwd con : bool) (E : Q).
Notation pinv := (pinv fwd con E).
Lemma GetState_spec e call gs c id c' : GetState e fwd call gs c id = Ok c' ->
  (id < eSize e)%nat /\ is_Some (cSt c' !! id) /\ (forall s, is_Some (cSt c !! s) -> is_Some (cSt c' !! s)) /\
  (c' = c \/ cSt c !! id = None /\ c' = ReInitializeSearchStateInfo e fwd call gs c id).
Proof.
  unfold GetState. destruct (eSize e <=? id)%nat eqn:El; [done|]. destruct (cSt c !! id) as [a|] eqn:Ea; intros [= <-].
  - split_and!; [lia|eauto|done|by left].
  - split_and!; [lia| | |by right].
    + cbn. rewrite lookup_insert. eauto.
    + intros s Hs. cbn. destruct (decide (s = id)) as [->|?]; [rewrite lookup_insert; eauto|by rewrite lookup_insert_ne].
Qed.
(** A state record is created (or was there already). *)
Lemma pinv_get G e p id c' : pinv G e p -> GetState e (aFwd p) (aCall p) (bool_decide (is_Some (aGoal p))) (aC p) id = Ok c' ->
  pinv G e (with_core p c').
Proof.
  intros P HE. rewrite (p_fwd _ _ _ _ _ _ P) in HE. destruct (GetState_spec _ _ _ _ _ _ HE) as (Hid&_&Hpr&Hc).
  destruct Hc as [->|(Hnone&->)]; [by destruct p|].
  assert (~ current (aCall p) (aC p) id) as Hnc by (intros (a&Ha&_); congruence).
  pose proof P as [Pfwd PE Pge Psees (m&z&Rm&Om&Lz&Hmz) Pdom Pcnt Pst Pgo Peps Ppar Phv Psearch].
  assert (m !! id = None) as Hm by (destruct (m !! id) eqn:Em; [|done]; destruct (Hmz id) as [? ?]; [left; eauto|congruence]).
  assert (~ id ∈ z.*2) as Hz by (intros Hz; destruct (Hmz id) as [? ?]; [by right|congruence]).
  split; wcbn; try (intros; auto; fail).
  - exists m, z. split_and!; cbn [ReInitializeSearchStateInfo cOpen cInc]; [by apply idx_rep|done|by apply elem_lrep|auto].
  - intros s a. cbn [ReInitializeSearchStateInfo cSt]. destruct (decide (s = id)) as [->|?].
    + rewrite lookup_insert. intros [= <-]. cbn. split; [done|lia].
    + rewrite lookup_insert_ne by done. apply Pdom.
  - intros Hr Hg s a. cbn [ReInitializeSearchStateInfo cSt]. destruct (decide (s = id)) as [->|?].
    + rewrite lookup_insert. intros [= <-]. cbn. rewrite bool_decide_eq_true_2; [done|]. by destruct (aGoal p); eauto.
    + rewrite lookup_insert_ne by done. by apply Phv.
  - intros Hr. destruct (Psearch Hr) as (s&m'&z'&Es&Eg&I&II&K&J). exists s, m', z'.
    rewrite bool_decide_eq_true_2 by (destruct (aGoal p); [eauto|done]).
    pose proof (fun s => reinit_lk e fwd (aCall p) (aC p) id s Hnc) as HL.
    split_and!; try done.
    + apply reinit_cinv; [done|done|done|lia].
    + intros Hn. eapply (iinv_sim G fwd con e e); [|by apply II]. intros u. rewrite HL. done.
    + intros Hv. eapply (kinv_sim fwd e e); [| |by apply K]; [|done]. intros u. rewrite HL. done.
    + destruct J as [J|(g&Hg&(a&Ha&Hc)&Hb)]; [by left|right]. exists g. wcbn. split_and!; try done.
      * exists a. cbn [ReInitializeSearchStateInfo cSt]. rewrite lookup_insert_ne; [done|congruence].
      * rewrite HL. done.
Qed.

Lemma pinv_SetGoal G e e' p id p' : pinv G e p -> good_env fwd E G e' -> eSize e' = eSize e -> SetSearchGoalState e' p id = Ok p' ->
  sees fwd con G e' (aGoal p') -> (aGoal p' <> aGoal p \/ forall s, heur fwd e' s = heur fwd e s) ->
  pinv G e' p' /\ aWrap p' = aWrap p /\ aGoal p' = Some id /\ aStart p' = aStart p.
Proof.
  intros P Hge Hsz. unfold SetSearchGoalState. case_bool_decide as Hid.
  - intros [= <-] Hse [?|Hh]; [done|]. split_and!; try done. by eapply pinv_env.
  - intros HE. apply obind_ok in HE as (c&Ec&[= <-]). wcbn. intros Hse _. split_and!; try done.
    pose proof (p_fwd _ _ _ _ _ _ P) as Pfwd.
    (* the graph part of the invariant does not depend on the heuristic: create the record in the old environment *)
    rewrite Pfwd in Ec. destruct (GetState_spec _ _ _ _ _ _ Ec) as (Hlt&Hpres&Hpr&Hc).
    assert (exists c0, GetState e (aFwd p) (aCall p) (bool_decide (is_Some (aGoal p))) (aC p) id = Ok c0 /\ cOpen c0 = cOpen c /\ cInc c0 = cInc c /\
      (forall call s, same_fields fwd (lk e fwd call c0 s) (lk e' fwd call c s)) /\
      (forall s a, cSt c !! s = Some a -> exists a0, cSt c0 !! s = Some a0 /\ sCall a = sCall a0) /\
      (forall s a, cSt c0 !! s = Some a -> exists a0, cSt c !! s = Some a0 /\ sCall a = sCall a0)) as (c0&E0&Ho&Hi&Hf&Hd&Hd').
    { unfold GetState. rewrite <- Hsz. destruct (eSize e' <=? id)%nat eqn:El; [lia|]. destruct Hc as [->|(Hn&->)].
      - destruct Hpres as [a Ha]. rewrite Ha. exists (aC p). split_and!; try done; [intros; apply env_fields|eauto|eauto].
      - rewrite Hn. eexists. split; [reflexivity|]. rewrite Pfwd. split_and!; try done.
        + intros call s. unfold lk. cbn [ReInitializeSearchStateInfo cSt]. destruct (decide (s = id)) as [->|?].
          * rewrite !lookup_insert. cbn. destruct (aCall p =? call), fwd; done.
          * rewrite !lookup_insert_ne by done. destruct (cSt (aC p) !! s) as [a|]; [destruct (sCall a =? call)|]; done.
        + intros s a. cbn [ReInitializeSearchStateInfo cSt]. destruct (decide (s = id)) as [->|?].
          * rewrite !lookup_insert. intros [= <-]. eauto.
          * rewrite !lookup_insert_ne by done. eauto.
        + intros s a. cbn [ReInitializeSearchStateInfo cSt]. destruct (decide (s = id)) as [->|?].
          * rewrite !lookup_insert. intros [= <-]. eauto.
          * rewrite !lookup_insert_ne by done. eauto. }
    pose proof (pinv_get G e p id c0 P E0) as P0.
    destruct P0 as [Qfwd QE Qge Qsees (m&z&Rm&Om&Lz&Hmz) Qdom Qcnt Qst Qgo Qeps Qpar Qhv Qsearch]. wcbn.
    split; wcbn; try done.
    + exists m, z. rewrite <- Ho, <- Hi. split_and!; try done. intros s Hs. destruct (Hmz s Hs) as [a Ha]. destruct (Hd' s a Ha) as (?&?&_). eauto.
    + intros s a Ha. destruct (Hd s a Ha) as (a0&Ha0&->). rewrite Hsz. eauto.
    + intros s Hs. destruct (Qst s Hs) as [a Ha]. destruct (Hd' s a Ha) as (?&?&_). eauto.
    + by intros s [= <-].
    + lra.
    + intros Hr. destruct (Qsearch Hr) as (s&m'&z'&Es&Eg&I&II&K&J). exists s, m', z'. split_and!; try done; [|by left].
      apply (cinv_sim G fwd e e' (aCall p) (aIter p) s None c0 c m' z'); try done. lia.
Qed.
Lemma pinv_SetStart G e e' p id p' : pinv G e p -> good_env fwd E G e' -> eSize e' = eSize e -> SetSearchStartState e' p id = Ok p' ->
  sees fwd con G e' (aGoal p') -> (aGoal p' <> aGoal p \/ forall s, heur fwd e' s = heur fwd e s) ->
  pinv G e' p' /\ aWrap p' = aWrap p /\ aGoal p' = aGoal p /\ aStart p' = Some id.
Proof.
  intros P Hge Hsz. unfold SetSearchStartState. intros HE. apply obind_ok in HE as (c&Ec&HE). intros Hse Hh.
  assert (aGoal p' = aGoal p /\ aStart p' = Some id /\ aWrap p' = aWrap p) as (Hg&Hs&Hw).
  { wcbn. case_bool_decide; injection HE as <-; wcbn; done. }
  split_and!; try done. rewrite Hg in *. destruct Hh as [?|Hh]; [done|].
  pose proof (pinv_env fwd con E G e e' p P Hge Hsz Hh Hse) as P1.
  pose proof (pinv_get G e' p id c P1 Ec) as P2. wcbn. case_bool_decide as Hid; injection HE as <-; [done|].
  assert (is_Some (cSt c !! id)) as Hpres by (rewrite (p_fwd _ _ _ _ _ _ P) in Ec; by destruct (GetState_spec _ _ _ _ _ _ Ec) as (_&?&_)).
  destruct P2. wcbn. split; wcbn; try done. by intros s [= <-].
Qed.
Lemma pinv_costs G e G' e' p : pinv G e p -> good_env fwd E G' e' -> (eSize e <= eSize e')%nat -> sees fwd con G' e' (aGoal p) ->
  pinv G' e' (costs_changed p).
Proof.
  intros P Hge Hsz Hse. unfold costs_changed. destruct P. split; wcbn; try done.
  intros s a Ha. destruct (p_dom s a Ha). split; [lia|done].
Qed.
Lemma pinv_scratch G e p : pinv G e p -> pinv G e (force_planning_from_scratch p).
Proof. intros P. unfold force_planning_from_scratch. destruct P. split; wcbn; done. Qed.
Lemma pinv_params G e p q : pinv G e p -> good_params E q -> pinv G e (set_params p q).
Proof. intros P (?&?&?). unfold set_params. destruct P. split; wcbn; try done. Qed.
Lemma pinv_blank G e first i d f : (5 <= E < INFQ)%Q -> good_env fwd E G e -> sees fwd con G e None ->
  (0 <= i <= E /\ 0 <= f <= E /\ 0 <= d)%Q -> pinv G e (blank fwd first i d f).
Proof.
  intros HE Hge Hse Hp. assert (0 < HEAPSIZE_INIT)%Z as Hh by done. destruct (new_heap_rep (K:=ckey) ckeyops HEAPSIZE_INIT Hh) as [R O].
  split; try done; try (by cbn).
  - exists ∅, []. split_and!; [apply R|apply O|apply new_list_lrep|]. intros s [[? [=]]|Hs]. by apply elem_of_nil in Hs.
  - apply Hp.
Qed.
End ops.

(** * Worlds *)
Section reach.
Context (fwd con : bool) (E : Q).
Notation pinv := (pinv fwd con E).
Definition uinv (p : ara) : Prop := aFwd p = fwd /\ (5 <= E < INFQ)%Q /\ (0 <= aInit p <= E /\ 0 <= aFinal p <= E /\ 0 <= aDec p)%Q.
Lemma SetGoal_rest e p id p' : SetSearchGoalState e p id = Ok p' ->
  aFwd p' = aFwd p /\ aInit p' = aInit p /\ aFinal p' = aFinal p /\ aDec p' = aDec p /\ aWrap p' = aWrap p /\ aGoal p' = Some id /\ aStart p' = aStart p.
Proof.
  unfold SetSearchGoalState. case_bool_decide; [by intros [= <-]|]. intros HE. apply obind_ok in HE as (c&_&[= <-]). wcbn. done.
Qed.
Lemma SetStart_rest e p id p' : SetSearchStartState e p id = Ok p' ->
  aFwd p' = aFwd p /\ aInit p' = aInit p /\ aFinal p' = aFinal p /\ aDec p' = aDec p /\ aWrap p' = aWrap p /\ aGoal p' = aGoal p /\ aStart p' = Some id.
Proof.
  unfold SetSearchStartState. intros HE. apply obind_ok in HE as (c&_&HE). wcbn. case_bool_decide; injection HE as <-; wcbn; done.
Qed.
Lemma set_goal_rest e p id p' : set_goal e p id = Ok p' -> aFwd p' = aFwd p /\ aInit p' = aInit p /\ aFinal p' = aFinal p /\ aDec p' = aDec p /\ aWrap p' = aWrap p.
Proof.
  unfold set_goal. destruct (aFwd p) eqn:Hf; intros HE; [apply SetGoal_rest in HE|apply SetStart_rest in HE]; destruct HE as (?&?&?&?&?&_); split_and!; congruence.
Qed.
Lemma set_start_rest e p id p' : set_start e p id = Ok p' -> aFwd p' = aFwd p /\ aInit p' = aInit p /\ aFinal p' = aFinal p /\ aDec p' = aDec p /\ aWrap p' = aWrap p.
Proof.
  unfold set_start. destruct (aFwd p) eqn:Hf; intros HE; [apply SetStart_rest in HE|apply SetGoal_rest in HE]; destruct HE as (?&?&?&?&?&_); split_and!; congruence.
Qed.
Lemma reach_uinv w : reach fwd con E w -> uinv (wP w).
Proof.
  induction 1 as [G e ? ? HE|G e e' p id p' _ IH _ _ HE _ _|G e e' p id p' _ IH _ _ HE _ _|G e G' e' p _ IH _ _ _|G e p _ IH|
    G e G' e' p p' _ IH _ _ HE|G e p q _ IH Hq|G e p fuel clk r p' _ IH HE]; cbn [wP] in *; unfold uinv in *.
  - split; [done|]. split; [done|]. cbn. lra.
  - destruct (set_goal_rest _ _ _ _ HE) as (->&->&->&->&_). done.
  - destruct (set_start_rest _ _ _ _ HE) as (->&->&->&->&_). done.
  - done.
  - done.
  - unfold force_planning_from_scratch_and_free_memory in HE. apply obind_ok in HE as (p1&E1&HE).
    assert (aFwd p1 = aFwd p /\ aInit p1 = aInit p /\ aFinal p1 = aFinal p /\ aDec p1 = aDec p) as (A1&A2&A3&A4).
    { destruct ((if aFwd p then (aStart p, aGoal p) else (aGoal p, aStart p)).1); [|by injection E1 as <-].
      apply set_start_rest in E1 as (->&->&->&->&_). done. }
    assert (aFwd p' = aFwd p1 /\ aInit p' = aInit p1 /\ aFinal p' = aFinal p1 /\ aDec p' = aDec p1) as (B1&B2&B3&B4).
    { destruct ((if aFwd p then (aStart p, aGoal p) else (aGoal p, aStart p)).2); [|by injection HE as <-].
      apply set_goal_rest in HE as (->&->&->&->&_). done. }
    rewrite B1, B2, B3, B4, A1, A2, A3, A4. done.
  - unfold set_params. wcbn. destruct IH as (?&?&_). done.
  - destruct r as [[b l] co]. destruct (Search_rest _ _ _ _ _ _ HE) as (_&_&->&->&->&->&_). done.
Qed.

Lemma pinv_free G' e' p p' : uinv p -> good_env fwd E G' e' -> sees fwd con G' e' (aGoal p) ->
  force_planning_from_scratch_and_free_memory e' p = Ok p' -> pinv G' e' p'.
Proof.
  intros (Hf&HE&Hpar) Hge Hse HF. set (e0 := mkEnv (eSize e') G' G' (eGoalH e') (eStartH e')).
  assert (good_env fwd E G' e0) as Hge0 by (destruct Hge; by split).
  assert (forall s, heur fwd e0 s = heur fwd e' s) as Hh by (intros s; unfold heur, e0; by destruct fwd).
  assert (sees fwd con G' e0 None) as Hse0.
  { split; [intros s _; unfold nbrs, e0; by destruct fwd|done|]. intros Hc s t c Hin. rewrite !Hh. by apply (se_cons _ _ _ _ _ Hse Hc). }
  assert (sees fwd con G' e0 (aGoal p)) as Hse1.
  { split; [intros s _; unfold nbrs, e0; by destruct fwd| |apply Hse0]. intros Hc s Hs. rewrite Hh. by apply (se_zero _ _ _ _ _ Hse Hc). }
  assert (force_planning_from_scratch_and_free_memory e0 p = Ok p') as HF0 by exact HF. clear HF.
  unfold force_planning_from_scratch_and_free_memory in HF0. rewrite Hf in HF0.
  pose proof (pinv_blank fwd con E G' e0 (aFirst p) (aInit p) (aDec p) (aFinal p) HE Hge0 Hse0 Hpar) as P0.
  set (p0 := blank fwd (aFirst p) (aInit p) (aDec p) (aFinal p)) in *.
  assert (aGoal p0 = None /\ aStart p0 = None /\ aFwd p0 = fwd) as (Hg0&Hs0&Hf0) by done. clearbody p0.
  assert (pinv G' e0 p' /\ aGoal p' = aGoal p) as [P' Hg'].
  2:{ eapply pinv_env; [exact P'|done|done| |by rewrite Hg']. intros s. by rewrite Hh. }
  apply obind_ok in HF0 as (p1&E1&E2). destruct fwd eqn:Efw; cbn [fst snd] in *.
  - assert (AraProofs3.pinv true con E G' e0 p1 /\ aGoal p1 = None /\ aFwd p1 = true) as (P1&Hg1&Hf1).
    { destruct (aStart p) as [s|]; [|by injection E1 as <-]. unfold set_start in E1. rewrite Hf0 in E1.
      destruct (SetStart_rest _ _ _ _ E1) as (F1&_&_&_&_&F2&_).
      destruct (pinv_SetStart true con E G' e0 e0 p0 s p1 P0 Hge0 eq_refl E1) as (?&_); [by rewrite F2, Hg0|by right|]. split_and!; congruence. }
    destruct (aGoal p) as [g|]; [|by injection E2 as <-]. unfold set_goal in E2. rewrite Hf1 in E2.
    destruct (SetGoal_rest _ _ _ _ E2) as (_&_&_&_&_&F2&_).
    destruct (pinv_SetGoal true con E G' e0 e0 p1 g p' P1 Hge0 eq_refl E2) as (?&_); [by rewrite F2|by right|]. done.
  - assert (AraProofs3.pinv false con E G' e0 p1 /\ aGoal p1 = aGoal p /\ aFwd p1 = false) as (P1&Hg1&Hf1).
    { destruct (aGoal p) as [s|]; [|by injection E1 as <-]. unfold set_start in E1. rewrite Hf0 in E1.
      destruct (SetGoal_rest _ _ _ _ E1) as (F1&_&_&_&_&F2&_).
      destruct (pinv_SetGoal false con E G' e0 e0 p0 s p1 P0 Hge0 eq_refl E1) as (?&_); [by rewrite F2|by right|]. split_and!; congruence. }
    destruct (aStart p) as [g|]; [|by injection E2 as <-]. unfold set_goal in E2. rewrite Hf1 in E2.
    destruct (SetStart_rest _ _ _ _ E2) as (_&_&_&_&_&F2&_).
    destruct (pinv_SetStart false con E G' e0 e0 p1 g p' P1 Hge0 eq_refl E2) as (?&_); [by rewrite F2, Hg1|by right|]. split; congruence.
Qed.

(** The invariant of all worlds in which no 16-bit counter has overflowed. *)
Theorem reach_pinv w : reach fwd con E w -> aWrap (wP w) = false -> pinv (wG w) (wE w) (wP w).
Proof.
  induction 1 as [G e ? ? HE|G e e' p id p' R IH Hge Hsz HE Hse Hh|G e e' p id p' R IH Hge Hsz HE Hse Hh|G e G' e' p R IH ? ? ?|G e p R IH|
    G e G' e' p p' R IH ? ? HE|G e p q R IH Hq|G e p fuel clk r p' R IH HE]; cbn [wP wG wE] in *; intros Hw.
  - apply pinv_blank; try done. lra.
  - destruct (set_goal_rest _ _ _ _ HE) as (_&_&_&_&Ew). rewrite Ew in Hw. specialize (IH Hw).
    unfold set_goal in HE. destruct (aFwd p); [by eapply pinv_SetGoal|by eapply pinv_SetStart].
  - destruct (set_start_rest _ _ _ _ HE) as (_&_&_&_&Ew). rewrite Ew in Hw. specialize (IH Hw).
    unfold set_start in HE. destruct (aFwd p); [by eapply pinv_SetStart|by eapply pinv_SetGoal].
  - by eapply pinv_costs; [apply IH| | |].
  - apply pinv_scratch. by apply IH.
  - eapply pinv_free; [apply (reach_uinv _ R)|done|done|done].
  - apply pinv_params; [by apply IH|done].
  - destruct r as [[b l] co]. destruct (Search_rest _ _ _ _ _ _ HE) as (_&_&_&_&_&_&W).
    by apply (Search_spec fwd con E G e fuel clk p b l co p' (IH (W Hw)) HE Hw).
Qed.
End reach.
