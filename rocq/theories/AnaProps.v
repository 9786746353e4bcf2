(** C67-C71: anaPlanner. *)
From Coq Require Import ZifyBool ZifyNat QArith Qround Lqa.
From Verif Require Import Base KeyModel HeapModel HeapProofs ListModel ListProofs AngleModel AngleProofs AraModel AraSpec AraProofs AraProofs3 AraPath AraProofs7 AnaModel AnaSpec AnaProofs AnaProofs2 AnaProofs3 AnaProofs4 AnaProofs5 AnaProofs6.
Local Open Scope Z_scope.

Section use.
Context (fwd con : bool) (n : nat) (G : nat -> list (nat * Z)) (e : aenv) (p : ana) (clk : nat -> bool) (s g : nat).
Context (A : acall fwd con n G e p clk s g).
Lemma use_ap : apinv fwd con G e p /\ nCall p + 1 < 65536 /\ good_env fwd 1 G e /\ asees fwd con G e (Some g).
Proof.
  destruct A as [HR Hn Hs Hg Hk]. destruct (ap_reach fwd con n _ HR ltac:(lia)) as [P Hc]. cbn in P, Hc. split; [done|]. split; [lia|].
  split; [apply P|]. rewrite <- Hg. apply P.
Qed.
Lemma use_ok fuel b path cost p' : areplan fuel e clk p = Ok (b, path, cost, p') -> aok fwd con G e s g p clk b path cost p'.
Proof. destruct use_ap as (P&Hc&Hge&Hse). apply asearch_spec; try done; apply A. Qed.
Lemma use_ends : nuser_start p = Some (if fwd then s else g) /\ nuser_goal p = Some (if fwd then g else s).
Proof.
  destruct use_ap as (P&_). unfold nuser_start, nuser_goal. rewrite (q_fwd _ _ _ _ (q_w _ _ _ _ _ P)), (ac_start _ _ _ _ _ _ _ _ _ A), (ac_goal _ _ _ _ _ _ _ _ _ A).
  by destruct fwd.
Qed.
End use.

(** C67: a search that begins with some time left ends, without an exception and without undefined behaviour. *)
Theorem C67_ana_replan_total : forall fwd con n G e p clk s g, acall fwd con n G e p clk s g ->
  (forall i j, (i <= j)%nat -> clk j = true -> clk i = true) ->
  exists N, forall fuel, (N <= fuel)%nat -> exists b path cost p', areplan fuel e clk p = Ok (b, path, cost, p').
Proof.
  intros fwd con n G e p clk s g A Hclk. destruct (use_ap _ _ _ _ _ _ _ _ _ A) as (P&Hc&Hge&Hse).
  destruct (asearch_total fwd con G e s g Hge Hse p clk P) as [N HN]; try done; try apply A.
  exists N. intros fuel Hf. destruct (HN fuel Hf) as [[[[b path] cost] p'] Hr]. eauto 6.
Qed.
Theorem C67_ana_setters : forall e p id, (id < eSize e)%nat ->
  (exists p', aset_goal e p id = Ok p' /\ nuser_goal p' = Some id /\ nuser_start p' = nuser_start p) /\
  (exists p', aset_start e p id = Ok p' /\ nuser_start p' = Some id /\ nuser_goal p' = nuser_goal p).
Proof.
  intros e p id Hid.
  assert (forall gs, exists c, GetState e (nFwd p) (nCall p) gs (nC p) id = Ok c) as Hget.
  { intros gs. unfold GetState. destruct (eSize e <=? id)%nat eqn:E; [lia|]. destruct (cSt (nC p) !! id); eauto. }
  assert (exists p', aSetSearchGoalState e p id = Ok p' /\ nGoal p' = Some id /\ nStart p' = nStart p /\ nFwd p' = nFwd p) as (p1&E1&A1&A2&A3).
  { unfold aSetSearchGoalState. destruct (bool_decide_reflect (nGoal p = Some id)) as [?|?].
    - by exists p.
    - destruct (Hget (bool_decide (is_Some (nGoal p)))) as [c ->]. cbn [obind]. eexists. split; [reflexivity|]. done. }
  assert (exists p', aSetSearchStartState e p id = Ok p' /\ nStart p' = Some id /\ nGoal p' = nGoal p /\ nFwd p' = nFwd p) as (p2&E2&B1&B2&B3).
  { unfold aSetSearchStartState. destruct (Hget (bool_decide (is_Some (nGoal p)))) as [c ->]. cbn [obind]. eexists. split; [reflexivity|]. done. }
  unfold aset_goal, aset_start, nuser_start, nuser_goal. destruct (nFwd p) eqn:Ef.
  - split; [exists p1|exists p2]; rewrite ?A3, ?B3; done.
  - split; [exists p2|exists p1]; rewrite ?A3, ?B3; done.
Qed.

(** C68: a returned path is a path of the environment from start to goal, not more expensive than the reported cost; no path is
    returned with a failure, and failure is reported exactly when the cost is INFINITECOST. *)
Theorem C68_ana_path_valid : forall fwd con n G e p clk s g fuel b path cost p', acall fwd con n G e p clk s g ->
  areplan fuel e clk p = Ok (b, path, cost, p') ->
  exists us ug, nuser_start p = Some us /\ nuser_goal p = Some ug /\
  match b with
  | true => exists C, route (fun x => x) (eedge fwd e) path us ug C /\ route (fun x => x) (gedge fwd G) path us ug C /\ C <= cost < INFINITECOST
  | false => path = [] /\ cost = INFINITECOST
  end.
Proof.
  intros fwd con n G e p clk s g fuel b path cost p' A HE. destruct (use_ends _ _ _ _ _ _ _ _ _ A) as [Hs Hg].
  destruct (use_ok _ _ _ _ _ _ _ _ _ A fuel b path cost p' HE) as (_&_&_&Hr&Hb&Hf&Ht&_).
  eexists _, _. split; [exact Hs|]. split; [exact Hg|]. destruct b.
  - destruct (Ht eq_refl) as (C&?&?&?). exists C. split_and!; try done. by apply Hb.
  - split; [auto|]. destruct (decide (cost < INFINITECOST)) as [Hlt|]; [by apply Hb in Hlt|lia].
Qed.

(** C69: if time never runs out and the heuristic is admissible, the search (not asked to stop at the first solution) returns an
    optimal path; and every search that fails is right that there is no path cheaper than INFINITECOST. *)
Theorem C69_ana_optimal : forall fwd n G e p clk s g fuel b path cost p', acall fwd true n G e p clk s g ->
  (forall i, clk i = true) -> areplan fuel e clk p = Ok (b, path, cost, p') ->
  (nFirst p = false -> forall C, aroute fwd G s g C -> C < INFINITECOST -> b = true /\ cost <= C) /\
  (nFirst p = false -> b = true -> exists us ug, nuser_start p = Some us /\ nuser_goal p = Some ug /\ route (fun x => x) (gedge fwd G) path us ug cost) /\
  (b = false -> forall C, aroute fwd G s g C -> INFINITECOST <= C).
Proof.
  intros fwd n G e p clk s g fuel b path cost p' A Hclk HE. destruct (use_ends _ _ _ _ _ _ _ _ _ A) as [Hs Hg].
  destruct (use_ok _ _ _ _ _ _ _ _ _ A fuel b path cost p' HE) as (_&_&_&Hr&Hb&Hf&Ht&_&_&Ho). split_and!.
  - intros Hfi C HC Hlt. apply sr_aroute in HC. specialize (Ho Hclk eq_refl (or_introl Hfi) C HC Hlt). split; [apply Hb; lia|done].
  - intros Hfi Hbt. destruct (Ht Hbt) as (C&_&HC&Hle). eexists _, _. split; [exact Hs|]. split; [exact Hg|].
    assert (cost < INFINITECOST) as Hlt by by apply Hb.
    assert (sr G (fun c => c) s g C) as HC' by (apply route_sr in HC; by destruct fwd).
    specialize (Ho Hclk eq_refl (or_introl Hfi) C HC' ltac:(lia)). by replace cost with C by lia.
  - intros Hbf C HC. apply sr_aroute in HC. destruct (decide (C < INFINITECOST)) as [Hlt|]; [|lia].
    specialize (Ho Hclk eq_refl (or_intror Hbf) C HC Hlt). assert (cost < INFINITECOST) as Hx by lia. apply Hb in Hx. congruence.
Qed.

(** C70: whenever the search stops, get_solution_eps is a bound on how far the reported cost is from optimal: with eps = x / d,
    cost <= eps * C for every route C, if the heuristic is admissible.  eps is at least 1 (d = 0 stands for infinity). *)
Theorem C70_ana_bound : forall fwd con n G e p clk s g fuel b path cost p', acall fwd con n G e p clk s g ->
  areplan fuel e clk p = Ok (b, path, cost, p') ->
  let eps := aget_solution_eps p' in 0 <= eps.2 <= eps.1 /\ 1 <= eps.1 /\
  (con = true -> forall C, aroute fwd G s g C -> cost * eps.2 <= eps.1 * C).
Proof.
  intros fwd con n G e p clk s g fuel b path cost p' A HE eps.
  destruct (use_ok _ _ _ _ _ _ _ _ _ A fuel b path cost p' HE) as (_&_&_&_&_&_&_&(H1&H2&H3)&_). split_and!; try apply H1; try apply H2.
  intros Hcon C HC. apply H3; [done|]. by apply sr_aroute in HC.
Qed.

(** C71: calling replan again, with nothing changed, goes on with the search: the cost does not get worse. *)
Theorem C71_ana_replan_improves : forall fwd con n G e p clk s g fuel b path cost p' clk' fuel' b' path' cost' p'',
  acall fwd con n G e p clk s g -> areplan fuel e clk p = Ok (b, path, cost, p') ->
  Z.of_nat (S n) < 65535 -> clk' 0%nat = true -> areplan fuel' e clk' p' = Ok (b', path', cost', p'') ->
  acall fwd con (S n) G e p' clk' s g /\ cost' <= cost /\ (b = true -> b' = true).
Proof.
  intros fwd con n G e p clk s g fuel b path cost p' clk' fuel' b' path' cost' p'' A HE Hn Hk HE'.
  destruct (use_ok _ _ _ _ _ _ _ _ _ A fuel b path cost p' HE) as ((m'&L')&_&Hcost&_&Hb&_).
  assert (acall fwd con (S n) G e p' clk' s g) as A'.
  { split; try done; try apply L'. eapply ar_replan; [apply A|exact HE]. }
  split; [done|]. destruct (use_ok _ _ _ _ _ _ _ _ _ A' fuel' b' path' cost' p'' HE') as (_&_&_&_&Hb'&_&_&_&Hle&_).
  specialize (Hle (l_reinit _ _ _ _ _ _ _ _ L')). rewrite <- Hcost in Hle. split; [done|]. intros Hbt. apply Hb'. apply Hb in Hbt. lia.
Qed.

(** * Examples *)
Definition exsuccs (s : nat) : list (nat * Z) :=
  match s with 0%nat => [(2%nat, 1); (3%nat, 4)] | 2%nat => [(1%nat, 10)] | 3%nat => [(1%nat, 2); (4%nat, 7)] | _ => [] end.
Definition exheur (s : nat) : Z := match s with 0%nat => 2 | 2%nat => 1 | 3%nat => 2 | _ => 0 end.
Definition exenv : aenv := mkEnv 5 exsuccs (fun _ => []) exheur (fun _ => 0).
Definition summary (r : ares (bool * list nat * Z * ana)) : option (bool * list nat * Z * ratio) :=
  match r with Ok r => Some (r.1, nSat r.2) | _ => None end.
Lemma summary_ok r b l c q : summary r = Some (b, l, c, q) -> exists p', r = Ok (b, l, c, p') /\ nSat p' = q.
Proof. destruct r as [[[[b' l'] c'] p']| | |]; [|done..]. cbn. intros [= -> -> -> <-]. by exists p'. Qed.
Definition get {A} (r : ares A) (d : A) : A := match r with Ok a => a | _ => d end.
Definition explanner : ana := get (aset_start exenv (get (aset_goal exenv (new_ana true) 1) (new_ana true)) 0) (new_ana true).

(** A consistent heuristic is admissible. *)
Lemma consistent_adm fwd G e g : (forall s t w, (t, w) ∈ G s -> heur fwd e s <= w + heur fwd e t) -> heur fwd e g <= 0 ->
  forall s C, aroute fwd G s g C -> heur fwd e s <= C.
Proof.
  intros Hcs H0 s C HC. apply sr_aroute in HC. assert (forall x C, sr G (fun c => c) s x C -> heur fwd e s <= C + heur fwd e x) as Hx.
  { intros x D. induction 1 as [|a b w D R IH Hin]; [lia|]. specialize (Hcs a b w Hin). lia. }
  specialize (Hx g C HC). lia.
Qed.
Ltac each := repeat match goal with
  | H : _ ∈ [] |- _ => by apply elem_of_nil in H
  | H : _ ∈ _ :: _ |- _ => apply elem_of_cons in H as [H|H]; [try (injection H as -> ->)|]
  end; try done; try lia.
Lemma ex_good : good_env true 1 exsuccs exenv.
Proof.
  split; cbn; try lia.
  - intros s t c Hin. unfold exsuccs in Hin. do 4 (destruct s as [|s]; [each; unfold INFINITECOST; lia|]). each.
  - intros s. unfold exheur. do 4 (destruct s as [|s]; [lia|]). lia.
  - intros s. unfold exheur. do 4 (destruct s as [|s]; [done|]). done.
Qed.
Lemma ex_sees con g : g <> Some 4%nat -> (forall s, g = Some s -> s = 1%nat) -> asees true con exsuccs exenv g.
Proof.
  intros _ Hg. split; [done|]. intros _ s a C Hs HC. specialize (Hg s Hs) as ->. apply (consistent_adm true exsuccs exenv 1); [|cbn; lia|done].
  intros u t w Hin. unfold heur. cbn. unfold exsuccs in Hin. unfold exheur. do 4 (destruct u as [|u]; [each|]). each.
Qed.
Lemma ex_reach con : areach true con 0 (mkNW exsuccs exenv explanner).
Proof.
  eapply (ar_start true con 0 exsuccs exenv exenv (get (aset_goal exenv (new_ana true) 1) (new_ana true)) 0); [|apply ex_good|done|done|apply ex_sees; [done|]|by left].
  2:{ intros s Hs. vm_compute in Hs. congruence. }
  eapply (ar_goal true con 0 exsuccs exenv exenv (new_ana true) 1); [|apply ex_good|done|done|apply ex_sees; [done|]|by left].
  2:{ intros s Hs. vm_compute in Hs. congruence. }
  apply ar_new; [apply ex_good|]. by apply ex_sees.
Qed.
(** The hypotheses of C67-C71 can be met. *)
Example C67_nonvacuous con : acall true con 0 exsuccs exenv explanner (fun _ => true) 0 1.
Proof. split; [apply ex_reach|done..]. Qed.
(** With time, the best path; when asked for the first solution, another one, with a bound of 11 / 6, and a second call improves it. *)
Example C69_run : summary (areplan 100 exenv (fun _ => true) explanner) = Some (true, [0; 3; 1]%nat, 6, (11, 6)).
Proof. vm_compute. reflexivity. Qed.
Example C70_run : summary (areplan 100 exenv (fun _ => true) (aset_search_mode explanner true)) = Some (true, [0; 2; 1]%nat, 11, (11, 6)).
Proof. vm_compute. reflexivity. Qed.
Example C71_run : match areplan 100 exenv (fun _ => true) (aset_search_mode explanner true) with
  | Ok r => summary (areplan 100 exenv (fun _ => true) r.2) | _ => None end = Some (true, [0; 3; 1]%nat, 6, (11, 6)).
Proof. vm_compute. reflexivity. Qed.

(** C69 fails when the state to be found changes between two searches and the planner is not told to start from scratch: states
    pruned because of the old goal's cost are never expanded again. *)
Definition ex2succs (s : nat) : list (nat * Z) := match s with 0%nat => [(1%nat, 5); (2%nat, 7)] | 2%nat => [(3%nat, 1)] | _ => [] end.
Definition ex2env : aenv := mkEnv 4 ex2succs (fun _ => []) (fun _ => 0) (fun _ => 0).
Definition ex2planner : ana := get (aset_start ex2env (get (aset_goal ex2env (new_ana true) 1) (new_ana true)) 0) (new_ana true).
Definition ex2after : ana := (get (areplan 100 ex2env (fun _ => true) ex2planner) (false, [], 0, new_ana true)).2.
Definition ex2again : ana := get (aset_goal ex2env ex2after 3) (new_ana true).
Lemma ex2_good : good_env true 1 ex2succs ex2env.
Proof.
  split; cbn; try lia; try done. intros s t c Hin. unfold ex2succs in Hin. do 3 (destruct s as [|s]; [each; unfold INFINITECOST; lia|]). each.
Qed.
Lemma ex2_sees con g : asees true con ex2succs ex2env g.
Proof.
  split; [done|]. intros _ a s C _ HC. change (heur true ex2env s) with 0. apply sr_aroute in HC.
  destruct (sr_pos ex2succs s a C) as [? _]; [|done|done]. apply (Gpos ex2succs ex2env true ex2_good).
Qed.
Theorem C69_ana_new_goal_refuted : exists G e p p1 r p2 C path cost p',
  areach true true 0 (mkNW G e p) /\ (forall g, asees true true G e g) /\ areplan 100 e (fun _ => true) p = Ok (r, p1) /\
  aset_goal e p1 3 = Ok p2 /\ nReinit p2 = false /\ aroute true G 0 3 C /\ C < INFINITECOST /\
  nStart p2 = Some 0%nat /\ nGoal p2 = Some 3%nat /\
  areplan 100 e (fun _ => true) p2 = Ok (false, path, cost, p').
Proof.
  assert (summary (areplan 100 ex2env (fun _ => true) ex2again) = Some (false, [], INFINITECOST, INFR)) as Hs by (vm_compute; reflexivity).
  destruct (summary_ok _ _ _ _ _ Hs) as (p'&Er&_).
  assert (summary (areplan 100 ex2env (fun _ => true) ex2planner) = Some (true, [0; 1]%nat, 5, (1, 1))) as Hs0 by (vm_compute; reflexivity).
  destruct (summary_ok _ _ _ _ _ Hs0) as (p1&Er0&_).
  assert (p1 = ex2after) as -> by (unfold ex2after; by rewrite Er0).
  exists ex2succs, ex2env, ex2planner, ex2after, (true, [0; 1]%nat, 5), ex2again, 8, [], INFINITECOST, p'.
  clear Hs Hs0. split; [|split; [intros g; apply ex2_sees|split; [exact Er0|split; [vm_compute; reflexivity|split; [vm_compute; reflexivity|split;
    [|split; [done|split; [vm_compute; reflexivity|split; [vm_compute; reflexivity|exact Er]]]]]]]]].
  - eapply (ar_start true true 0 ex2succs ex2env ex2env (get (aset_goal ex2env (new_ana true) 1) (new_ana true)) 0); [|apply ex2_good|done|done|apply ex2_sees|by left].
    eapply (ar_goal true true 0 ex2succs ex2env ex2env (new_ana true) 1); [|apply ex2_good|done|done|apply ex2_sees|by left].
    apply ar_new; [apply ex2_good|apply ex2_sees].
  - assert ((3%nat, 1) ∈ ex2succs 2 /\ (2%nat, 7) ∈ ex2succs 0) as [H1 H2] by (split; apply elem_of_list_In; cbn; tauto).
    apply sr_aroute. change 8 with (0 + 7 + 1).
    exact (sr_S ex2succs (fun c => c) 0 2 3 1 (0 + 7) (sr_S ex2succs (fun c => c) 0 0 2 7 0 (sr_0 ex2succs (fun c => c) 0) H2) H1).
Qed.

(** C68 fails when no time is left when the search begins, after costs have changed: a backward search returns the old path with
    the old cost, though its edges are gone; a forward search throws. *)
Definition ex3env (edge : bool) : aenv := mkEnv 2 (fun _ => []) (fun s => match s with 1%nat => if edge then [(0%nat, 5)] else [] | _ => [] end) (fun _ => 0) (fun _ => 0).
Definition ex3G (edge : bool) : nat -> list (nat * Z) := ePreds (ex3env edge).
Definition ex3planner : ana := get (aset_start (ex3env true) (get (aset_goal (ex3env true) (new_ana false) 1) (new_ana false)) 0) (new_ana false).
Definition ex3after : ana := (get (areplan 100 (ex3env true) (fun _ => true) ex3planner) (false, [], 0, new_ana false)).2.
Lemma ex3_good b : good_env false 1 (ex3G b) (ex3env b).
Proof.
  split; cbn; try lia; try done. intros s t c Hin. do 2 (destruct s as [|s]; [destruct b; each; unfold INFINITECOST; lia|]). each.
Qed.
Lemma ex3_sees b con g : asees false con (ex3G b) (ex3env b) g.
Proof.
  split; [done|]. intros _ a s C _ HC. change (heur false (ex3env b) s) with 0. apply sr_aroute in HC.
  destruct (sr_pos (ex3G b) s a C) as [? _]; [|done|done]. apply (Gpos (ex3G b) (ex3env b) false (ex3_good b)).
Qed.
Theorem C68_ana_no_time_refuted : exists G e p clk fuel path cost p', areach false true 1 (mkNW G e p) /\
  nuser_start p = Some 0%nat /\ nuser_goal p = Some 1%nat /\
  areplan fuel e clk p = Ok (true, path, cost, p') /\ forall C, ~ route (fun x => x) (gedge false G) path 0 1 C.
Proof.
  assert (summary (areplan 100 (ex3env false) (fun _ => false) (ascratch ex3after)) = Some (true, [0; 1]%nat, 5, INFR)) as Hs by (vm_compute; reflexivity).
  destruct (summary_ok _ _ _ _ _ Hs) as (p'&Er&_).
  assert (summary (areplan 100 (ex3env true) (fun _ => true) ex3planner) = Some (true, [0; 1]%nat, 5, INFR)) as Hs0 by (vm_compute; reflexivity).
  destruct (summary_ok _ _ _ _ _ Hs0) as (p1&Er0&_).
  assert (p1 = ex3after) as -> by (unfold ex3after; by rewrite Er0).
  exists (ex3G false), (ex3env false), (ascratch ex3after), (fun _ => false), 100%nat, [0; 1]%nat, 5, p'. clear Hs Hs0.
  split; [|split; [vm_compute; reflexivity|split; [vm_compute; reflexivity|split; [exact Er|]]]].
  - eapply (ar_costs false true 1 (ex3G true) (ex3env true)); [|apply ex3_good|done|apply ex3_sees].
    eapply ar_replan; [|exact Er0].
    eapply (ar_start false true 0 (ex3G true) (ex3env true) (ex3env true) (get (aset_goal (ex3env true) (new_ana false) 1) (new_ana false)) 0); [|apply ex3_good|done|done|apply ex3_sees|by left].
    eapply (ar_goal false true 0 (ex3G true) (ex3env true) (ex3env true) (new_ana false) 1); [|apply ex3_good|done|done|apply ex3_sees|by left].
    apply ar_new; [apply ex3_good|apply ex3_sees].
  - intros C HR. inversion HR as [|a b l z w C0 Hab]; subst. cbn in Hab. each.
Qed.
Definition ex2scratch : ana := ascratch ex2after.
Theorem C67_ana_no_time_refuted : exists G e p clk s g fuel x, areach true true 1 (mkNW G e p) /\ nStart p = Some s /\ nGoal p = Some g /\
  areplan fuel e clk p = Exn x.
Proof.
  assert (exists x, areplan 100 ex2env (fun _ => false) ex2scratch = Exn x) as [x Hx] by (vm_compute; eexists; reflexivity).
  assert (summary (areplan 100 ex2env (fun _ => true) ex2planner) = Some (true, [0; 1]%nat, 5, (1, 1))) as Hs0 by (vm_compute; reflexivity).
  destruct (summary_ok _ _ _ _ _ Hs0) as (p1&Er0&_).
  assert (p1 = ex2after) as -> by (unfold ex2after; by rewrite Er0).
  exists ex2succs, ex2env, ex2scratch, (fun _ => false), 0%nat, 1%nat, 100%nat, x. clear Hs0.
  split; [|split; [vm_compute; reflexivity|split; [vm_compute; reflexivity|exact Hx]]].
  eapply (ar_costs true true 1 ex2succs ex2env); [|apply ex2_good|done|apply ex2_sees]. eapply ar_replan; [|exact Er0].
  eapply (ar_start true true 0 ex2succs ex2env ex2env (get (aset_goal ex2env (new_ana true) 1) (new_ana true)) 0); [|apply ex2_good|done|done|apply ex2_sees|by left].
  eapply (ar_goal true true 0 ex2succs ex2env ex2env (new_ana true) 1); [|apply ex2_good|done|done|apply ex2_sees|by left].
  apply ar_new; [apply ex2_good|apply ex2_sees].
Qed.
Print Assumptions C67_ana_replan_total.
Print Assumptions C67_ana_setters.
Print Assumptions C68_ana_path_valid.
Print Assumptions C69_ana_optimal.
Print Assumptions C70_ana_bound.
Print Assumptions C71_ana_replan_improves.
Print Assumptions C69_ana_new_goal_refuted.
Print Assumptions C68_ana_no_time_refuted.
Print Assumptions C67_ana_no_time_refuted.
