(** C59-C62: LazyARAPlanner. *)
From Coq Require Import ZifyBool ZifyNat QArith Lqa.
From Verif Require Import Base KeyModel HeapModel AngleModel AraModel AraSpec LazyModel LazySpec LazyPq LazyProofs LazyProofs2 LazyProofs3 LazyProofs4 LazyProofs5.
Local Open Scope Z_scope.
Notation idw := (fun x : Z => x).

(** The call of the theorems as the search sees it. *)
Lemma lcall_spec fwd E N k n p e clk q s t : lcall fwd E N k n p e clk q s t ->
  zGoal p = Some (to_ fwd s t) /\ zStart p = Some (from_ fwd s t) /\ (to_ fwd s t < N)%nat /\ (from_ fwd s t < N)%nat /\
  exists f0 b o p', (forall fuel, (f0 <= fuel)%nat -> lreplan fuel e clk p q = Ok (b, o, p')) /\
    call_ok e fwd clk q s t b o p' /\ forall fuel x, lreplan fuel e clk p q = Ok x -> x = (b, o, p').
Proof.
  intros [Hr Hn HG Hq Hc Hs Ht HsN HtN Hz]. pose proof (lreach_RI fwd n p Hr ltac:(lia)) as HRI. pose proof (r_fwd _ _ _ HRI) as Hf.
  unfold luser_start, luser_goal in *. rewrite Hf in Hs, Ht.
  assert (zGoal p = Some (to_ fwd s t)) as Eg by (unfold to_; by destruct fwd).
  assert (zStart p = Some (from_ fwd s t)) as Es by (unfold from_; by destruct fwd).
  assert (to_ fwd s t < N)%nat as H1 by (unfold to_; by destruct fwd). assert (from_ fwd s t < N)%nat as H2 by (unfold from_; by destruct fwd).
  split_and!; try done.
  destruct (replan_spec fwd n p E N k e clk q _ _ HRI Hn HG Hq Hc Eg Es H1 H2) as (f0&b&o&p'&Hall&_&HC).
  { unfold to_, from_. by destruct fwd. }
  exists f0, b, o, p'. split; [done|]. split; [unfold to_, from_ in HC; by destruct fwd|].
  intros fuel x Hx. apply (lreplan_mono _ (f0 `max` fuel)%nat) in Hx; [|lia]. rewrite Hall in Hx by lia. congruence.
Qed.
Lemma call_routes fwd E N k n p e clk q s t : lcall fwd E N k n p e clk q s t -> forall eps l C,
  route (inflate eps) (real_edge e fwd) l (from_ fwd s t) (to_ fwd s t) C -> exists C', srg e fwd s t (inflate eps) t C' /\ C' <= C.
Proof.
  intros [Hr Hn HG Hq Hc Hs Ht HsN HtN Hz] eps l C HR.
  exact (user_route e fwd E N 0 s t HG Hz ltac:(lia) HsN HtN eps l C HR).
Qed.
Lemma all_true_alltrue e fwd : all_true e fwd -> alltrue e fwd.
Proof. intros H p t w b Hin. unfold all_true, listed, lnbrs in *. destruct fwd; by eapply H. Qed.

(** C59: a call of replan comes to an end, throws nothing and does nothing undefined; afterwards start and goal must be set again. *)
Theorem C59_lazy_replan_total fwd E N k n p e clk q s t : lcall fwd E N k n p e clk q s t ->
  exists f0 b l cost p', (forall fuel, (f0 <= fuel)%nat -> lreplan fuel e clk p q = Ok (b, Some (l, cost), p')) /\
    lreach fwd (S n) p' /\ luser_start p' = None /\ luser_goal p' = None /\ (b = false -> l = [] /\ cost = 0).
Proof.
  intros HL. pose proof HL as [Hr Hn HG Hq Hc Hs Ht HsN HtN Hz].
  destruct (lcall_spec _ _ _ _ _ _ _ _ _ _ _ HL) as (Eg&Es&H1&H2&f0&b&o&p'&Hall&(HC1&HC2&HC)&_).
  assert (exists l cost, o = Some (l, cost) /\ (b = false -> l = [] /\ cost = 0)) as (l&cost&->&Hb).
  { destruct b; [destruct HC as (l&C&Cx&ok&->&_); by exists l, Cx|destruct HC as [-> _]; by exists [], 0]. }
  exists f0, b, l, cost, p'. split; [done|]. split; [|unfold luser_start, luser_goal; rewrite HC1, HC2; by destruct (zFwd p')].
  eapply (lreach_replan fwd n p E N k f0 e clk q (b, Some (l, cost)) p'); try done; [..|by apply Hall].
  - intros x. rewrite Es. by intros [= <-].
  - intros x. rewrite Eg. by intros [= <-].
  - intros x. rewrite Eg, Es. unfold to_, from_. destruct fwd; by intros [= <-].
Qed.
Theorem C59_lazy_no_start_or_goal fuel e clk p q : luser_start p = None \/ luser_goal p = None ->
  exists p', lreplan fuel e clk p q = Ok (false, None, p') /\ zC p' = zC p.
Proof. unfold luser_start, luser_goal, lreplan. intros H. destruct (zFwd p), (zGoal p), (zStart p); try (by destruct H); eexists; done. Qed.
Theorem C59_lazy_free_total fwd n p : lreach fwd n p -> Z.of_nat n < 65535 -> exists p', lfree p = Ok p' /\ luser_start p' = luser_start p /\ luser_goal p' = luser_goal p.
Proof.
  intros Hr Hn. destruct (lfree_spec fwd n p (lreach_RI fwd n p Hr Hn)) as (p'&E1&_). exists p'. split; [done|].
  unfold lfree in E1. destruct (llift LHeap (makeemptyheap (kOpen (zC p)))); try done. by injection E1 as <-.
Qed.

(** What the setters do to start and goal as the user knows them. *)
Theorem C59_lazy_setters p s b x : luser_goal (lset_goal p s) = Some s /\ luser_start (lset_goal p s) = luser_start p /\
  luser_start (lset_start p s) = Some s /\ luser_goal (lset_start p s) = luser_goal p /\
  luser_start (lset_mode p b) = luser_start p /\ luser_goal (lset_mode p b) = luser_goal p /\ xFirst (zPar (lset_mode p b)) = b /\
  luser_start (lset_eps p x) = luser_start p /\ luser_goal (lset_eps p x) = luser_goal p /\ xInit (zPar (lset_eps p x)) = x.
Proof. unfold luser_goal, luser_start, lset_goal, lset_start, lset_mode, lset_eps. destruct p as [? ? ? ? [|] ? ?]; cbn; done. Qed.

(** C60: a path that is returned is a path of the environment between start and goal, and the reported cost is the sum of the least costs listed
    for its steps.  Only the step at the goal may be one that has not been evaluated, and only if the time ran out. *)
Theorem C60_lazy_path fwd E N k n p e clk q s t fuel o p' : lcall fwd E N k n p e clk q s t -> lreplan fuel e clk p q = Ok (true, o, p') ->
  exists l cost C, o = Some (l, cost) /\
    route idw (fun a b w => real_edge e fwd a b w \/ (if fwd then b else a) = t /\ listed e fwd a b w false) l (from_ fwd s t) (to_ fwd s t) C /\
    route idw (least e fwd) l (from_ fwd s t) (to_ fwd s t) cost.
Proof.
  intros HL Hrun. destruct (lcall_spec _ _ _ _ _ _ _ _ _ _ _ HL) as (_&_&_&_&f0&b&o1&p1&_&(_&_&HC)&Hdet).
  specialize (Hdet _ _ Hrun). injection Hdet as <- <- <-. destruct HC as (l&C&Cx&ok&->&R1&R2&_). exists l, Cx, C. split_and!; try done.
  eapply route_impl'; [|exact R1]. intros a b w [?|(_&?&?)]; [by left|by right].
Qed.
Theorem C60_lazy_path_real fwd E N k n p e clk q s t fuel o p' : lcall fwd E N k n p e clk q s t -> no_timeout q clk \/ all_true e fwd ->
  lreplan fuel e clk p q = Ok (true, o, p') ->
  exists l cost C, o = Some (l, cost) /\ route idw (real_edge e fwd) l (from_ fwd s t) (to_ fwd s t) C /\
    route idw (least e fwd) l (from_ fwd s t) (to_ fwd s t) cost /\ (informed fwd e -> cost <= C).
Proof.
  intros HL Hnt Hrun. destruct (lcall_spec _ _ _ _ _ _ _ _ _ _ _ HL) as (_&_&_&_&f0&b&o1&p1&_&(_&_&HC)&Hdet).
  specialize (Hdet _ _ Hrun). injection Hdet as <- <- <-. destruct HC as (l&C&Cx&ok&->&R1&R2&Hok&_). exists l, Cx, C. split_and!; try done.
  - eapply route_impl'; [|exact R1]. intros a b w [?|(Hf&?&Hls)]; [done|]. destruct Hnt as [Hnt|Ha]; [rewrite Hok in Hf; done|]. by apply Ha in Hls.
  - intros Hin. by eapply (least_le e fwd l).
Qed.

(** C61: if the search says that there is no path and was not stopped by the clock, then there is none (of inflated cost below INFINITECOST). *)
Theorem C61_lazy_failure fwd E N k n p e clk q s t fuel o p' : lcall fwd E N k n p e clk q s t -> informed fwd e -> no_timeout q clk ->
  lreplan fuel e clk p q = Ok (false, o, p') ->
  forall l C, route (inflate (xInit q)) (real_edge e fwd) l (from_ fwd s t) (to_ fwd s t) C -> INFINITECOST <= C.
Proof.
  intros HL Hin Hnt Hrun l C HR. destruct (lcall_spec _ _ _ _ _ _ _ _ _ _ _ HL) as (_&_&_&_&f0&b&o1&p1&_&(_&_&HC)&Hdet).
  specialize (Hdet _ _ Hrun). injection Hdet as <- <- <-. destruct HC as (_&HC).
  destruct (call_routes _ _ _ _ _ _ _ _ _ _ _ HL _ _ _ HR) as (C'&HS&HC'). pose proof (HC Hnt (informed_inf e fwd Hin) C' HS). lia.
Qed.

(** C62: the real cost of the path, and so the reported cost, is within the factor initial_eps of the best path; a search for a first solution
    reports that factor. *)
Theorem C62_lazy_bound fwd E N k n p e clk q s t fuel o p' : lcall fwd E N k n p e clk q s t -> informed fwd e -> no_timeout q clk ->
  lreplan fuel e clk p q = Ok (true, o, p') ->
  exists l cost C, o = Some (l, cost) /\ route idw (real_edge e fwd) l (from_ fwd s t) (to_ fwd s t) C /\ cost <= C /\
    (forall l' C', route (inflate (xInit q)) (real_edge e fwd) l' (from_ fwd s t) (to_ fwd s t) C' -> C <= C') /\
    (xFirst q = true -> lsolution_eps p' = xInit q).
Proof.
  intros HL Hin Hnt Hrun. destruct (lcall_spec _ _ _ _ _ _ _ _ _ _ _ HL) as (_&_&_&_&f0&b&o1&p1&_&(_&_&HC)&Hdet).
  specialize (Hdet _ _ Hrun). injection Hdet as <- <- <-. destruct HC as (l&C&Cx&ok&->&R1&R2&Hok&HB&HX&_). exists l, Cx, C. split_and!; try done.
  - eapply route_impl'; [|exact R1]. intros a b w [?|(Hf&_)]; [done|]. rewrite Hok in Hf; done.
  - by eapply (least_le e fwd l).
  - intros l' C' HR. destruct (call_routes _ _ _ _ _ _ _ _ _ _ _ HL _ _ _ HR) as (C1&HS&HC1). pose proof (HB (informed_inf e fwd Hin) Hnt C1 HS). lia.
  - auto.
Qed.
(** If all costs are true costs, then the path is within the reported factor (get_solution_eps) of the best one, whatever the clock says and however
    often the search has been improved. *)
Theorem C62_lazy_anytime_bound fwd E N k n p e clk q s t fuel o p' : lcall fwd E N k n p e clk q s t -> informed fwd e -> all_true e fwd ->
  lreplan fuel e clk p q = Ok (true, o, p') -> (0 <= lsolution_eps p' < inject_Z INFINITECOST)%Q ->
  exists l cost C, o = Some (l, cost) /\ route idw (real_edge e fwd) l (from_ fwd s t) (to_ fwd s t) C /\ cost <= C /\
    (forall l' C', route (inflate (lsolution_eps p')) (real_edge e fwd) l' (from_ fwd s t) (to_ fwd s t) C' -> C <= C').
Proof.
  intros HL Hin Ha Hrun Heps. destruct (lcall_spec _ _ _ _ _ _ _ _ _ _ _ HL) as (_&_&_&_&f0&b&o1&p1&_&(_&_&HC)&Hdet).
  specialize (Hdet _ _ Hrun). injection Hdet as <- <- <-. destruct HC as (l&C&Cx&ok&->&R1&R2&_&_&_&HB). exists l, Cx, C. split_and!; try done.
  - eapply route_impl'; [|exact R1]. intros a b w [?|(_&_&Hls)]; [done|]. by apply Ha in Hls.
  - by eapply (least_le e fwd l).
  - intros l' C' HR. destruct (call_routes _ _ _ _ _ _ _ _ _ _ _ HL _ _ _ HR) as (C1&HS&HC1).
    pose proof (HB (informed_inf e fwd Hin) (all_true_alltrue e fwd Ha) Heps C1 HS). lia.
Qed.

(** * An environment *)
Definition exsuccs (s : nat) : list (nat * Z * bool) :=
  match s with
  | 0%nat => [(1%nat, 40, true); (2%nat, 1, true); (3%nat, 2, true); (4%nat, 12, true); (5%nat, 14, true); (7%nat, 1, true)]
  | 2%nat => [(6%nat, 1, false)]
  | 3%nat => [(6%nat, 8, true)]
  | 4%nat => [(6%nat, 1, true)]
  | 5%nat => [(6%nat, 1, true)]
  | 6%nat => [(1%nat, 10, true)]
  | 7%nat => [(4%nat, 3, true)]
  | _ => []
  end.
Definition exheur (s : nat) : Z := match s with 6%nat => 10 | 7%nat => 3 | _ => 0 end.
Definition exenv (tc : Z) : lenv := mkLEnv exsuccs (fun _ => []) (fun u v => if (u =? 2)%nat && (v =? 6)%nat then tc else -1) exheur (fun _ => 0).
Definition explanner : lazy := lset_goal (lset_start (new_lazy true) 0) 1.
Definition exq : lparams := mkLP 5 1 4 false.
Lemma exq_good : good_lparams 5 4 exq.
Proof. split; [|done]. repeat split; by vm_compute. Qed.
Ltac each := repeat match goal with H : _ ∈ _ :: _ |- _ => apply elem_of_cons in H as [H|H]; [simplify_eq|] | H : _ ∈ [] |- _ => by apply elem_of_nil in H end.
Lemma ex_env tc : tc <= 9 -> good_lenv true 5 8 (exenv tc).
Proof.
  intros Htc. split; cbn.
  - lia.
  - intros s t c b H. unfold lnbrs, exenv, exsuccs, lSuccs in H. do 8 (destruct s as [|s]; [each; unfold INFINITECOST; repeat split; try lia|]). by apply elem_of_nil in H.
  - intros s t. unfold ltcost. cbn. unfold INFINITECOST. destruct ((s =? 2)%nat && (t =? 6)%nat); lia.
  - intros s. unfold lheur. cbn. do 8 (destruct s as [|s]; [cbn; lia|]). cbn. lia.
  - intros s. unfold lheur. cbn. do 8 (destruct s as [|s]; [cbn; reflexivity|]). reflexivity.
Qed.
Lemma ex_call tc q : tc <= 9 -> good_lparams 5 4 q -> lcall true 5 8 4 0 explanner (exenv tc) (fun _ => true) q 0 1.
Proof.
  intros Htc Hq. split; try done; try lia.
  - apply (lreach_goal true 0 (lset_start (new_lazy true) 0) 1), (lreach_start true 0 (new_lazy true) 0), lreach_new.
  - by apply ex_env.
Qed.
Lemma ex_informed tc : informed true (exenv tc).
Proof.
  split.
  - intros u v c H. unfold listed, exenv, exsuccs, lSuccs in H. do 8 (destruct u as [|u]; [each; unfold exenv, lTrueCost; cbn [Nat.eqb andb]; lia|]). by apply elem_of_nil in H.
  - intros u v w H. assert (exists c b, listed (exenv tc) true u v c b) as (c&b&Hl) by (destruct H as [?|(c&?&_)]; eauto).
    unfold listed, exenv, exsuccs, lSuccs in Hl. cbn. destruct H as [H|(c0&H&Hw&Hp)].
    + unfold listed, exenv, exsuccs, lSuccs in H. clear Hl. do 8 (destruct u as [|u]; [each; cbn; lia|]). by apply elem_of_nil in H.
    + unfold listed, exenv, exsuccs, lSuccs in H. clear Hl. do 8 (destruct u as [|u]; [each; cbn in *; lia|]). by apply elem_of_nil in H.
Qed.
Definition summary (r : lres (bool * option (list nat * Z) * lazy)) : option (bool * option (list nat * Z) * list Q) :=
  match r with Ok r => Some (r.1.1, r.1.2, zStats r.2) | _ => None end.

Lemma summary_ok r b o st : summary r = Some (b, o, st) -> exists p', r = Ok (b, o, p') /\ zStats p' = st.
Proof. destruct r as [[[b' o'] p']| | |]; [|done..]. cbn. intros [= -> -> <-]. by exists p'. Qed.
(** The anytime bound does not hold with estimates: the search reports eps = 1 and a path of cost 20, the best path costs 15. *)
Example C62_run : summary (lreplan 100 (exenv (-1)) (fun _ => true) explanner exq) = Some (true, Some ([0; 3; 6; 1]%nat, 20), [5; 1]%Q).
Proof. vm_compute. reflexivity. Qed.
Example C62_run1 : summary (lreplan 100 (exenv (-1)) (fun _ => true) explanner (mkLP 1 1 4 false)) = Some (true, Some ([0; 7; 4; 6; 1]%nat, 15), [1]%Q).
Proof. vm_compute. reflexivity. Qed.
Lemma inflate1 w : inflate 1 w = w.
Proof. unfold inflate. replace (Qceiling (1 * inject_Z w)) with w; [lia|]. unfold Qmult, inject_Z, Qceiling, Qfloor. cbn. rewrite Z.div_1_r. destruct w; lia. Qed.
Theorem C62_lazy_reported_bound_refuted : exists fwd E N k n p e clk q s t fuel l cost p' l' C',
  lcall fwd E N k n p e clk q s t /\ informed fwd e /\ no_timeout q clk /\ lreplan fuel e clk p q = Ok (true, Some (l, cost), p') /\ lsolution_eps p' = 1%Q /\
  route (inflate 1) (real_edge e fwd) l' (from_ fwd s t) (to_ fwd s t) C' /\ C' < cost.
Proof.
  destruct (summary_ok _ _ _ _ C62_run) as (p'&Er&Hst).
  exists true, 5%Q, 8%nat, 4%nat, 0%nat, explanner, (exenv (-1)), (fun _ => true), exq, 0%nat, 1%nat, 100%nat, [0; 3; 6; 1]%nat, 20, p', [0; 7; 4; 6; 1]%nat, 15.
  split; [apply ex_call; [lia|]|]. { apply exq_good. }
  split; [apply ex_informed|]. split; [by right|]. split; [exact Er|]. split; [unfold lsolution_eps; by rewrite Hst|]. split; [|lia].
  assert (forall a b w, (b, w, true) ∈ exsuccs a -> real_edge (exenv (-1)) true a b w) as He by (intros; by left).
  replace 15 with (inflate 1 1 + (inflate 1 3 + (inflate 1 1 + (inflate 1 10 + 0)))) by (rewrite !inflate1; lia).
  apply route_cons; [apply He, elem_of_list_In; cbn; tauto|]. apply route_cons; [apply He, elem_of_list_In; cbn; tauto|].
  apply route_cons; [apply He, elem_of_list_In; cbn; tauto|]. apply route_cons; [apply He, elem_of_list_In; cbn; tauto|]. constructor.
Qed.
(** When the time is over the last step of the path may be one that does not exist. *)
Definition ex2env : lenv := mkLEnv (fun s => match s with 0%nat => [(1%nat, 5, false)] | _ => [] end) (fun _ => []) (fun _ _ => -1) (fun _ => 0) (fun _ => 0).
Theorem C60_lazy_real_after_timeout_refuted : exists fwd E N k n p e clk q s t fuel l cost p',
  lcall fwd E N k n p e clk q s t /\ informed fwd e /\ lreplan fuel e clk p q = Ok (true, Some (l, cost), p') /\ lsolution_eps p' = 5%Q /\
  forall l' C, ~ route idw (real_edge e fwd) l' (from_ fwd s t) (to_ fwd s t) C.
Proof.
  assert (summary (lreplan 100 ex2env (fun i => (i <? 2)%nat) explanner exq) = Some (true, Some ([0; 1]%nat, 5), [5]%Q)) as Hs by (vm_compute; reflexivity).
  destruct (summary_ok _ _ _ _ Hs) as (p'&Er&Hst).
  exists true, 5%Q, 8%nat, 4%nat, 0%nat, explanner, ex2env, (fun i => (i <? 2)%nat), exq, 0%nat, 1%nat, 100%nat, [0; 1]%nat, 5, p'.
  split_and!.
  - clear Hs Er Hst. split; try done; try lia.
    + apply (lreach_goal true 0 (lset_start (new_lazy true) 0) 1), (lreach_start true 0 (new_lazy true) 0), lreach_new.
    + split; cbn; try lia; try done.
      intros s t c b H. unfold lnbrs, ex2env, lSuccs in H. destruct s as [|s]; each. unfold INFINITECOST. repeat split; lia.
    + intros i j. lia.
  - clear Hs Er Hst. split; cbn; [intros; lia|]. intros u v w H. destruct H as [H|(c&_&<-&H)]; [|cbn in H; lia]. unfold listed, ex2env, lSuccs in H. destruct u; each.
  - exact Er.
  - unfold lsolution_eps. by rewrite Hst.
  - clear Hs Er Hst. intros l' C H. cbn in H. inversion H as [|a b l z w C0 Hab]; subst.
    destruct Hab as [Hab|(c&_&<-&Hab)]; [|cbn in Hab; lia]. unfold listed, ex2env, lSuccs in Hab. each.
Qed.
(** A planner that searches backward returns the path from the goal to the start, along predecessor lists. *)
Definition ex3env : lenv := mkLEnv (fun s => match s with 0%nat => [(1%nat, 5, true)] | _ => [] end) (fun s => match s with 1%nat => [(0%nat, 5, true)] | _ => [] end) (fun _ _ => -1) (fun _ => 0) (fun _ => 0).
Theorem C60_lazy_backward_start_to_goal_refuted : exists E N k n p e clk q s t fuel p',
  lcall false E N k n p e clk q s t /\ informed false e /\ no_timeout q clk /\ all_true e false /\ route idw (real_edge e false) [s; t] s t 5 /\
  lreplan fuel e clk p q = Ok (false, Some ([], 0), p').
Proof.
  assert (summary (lreplan 100 ex3env (fun _ => true) (lset_goal (lset_start (new_lazy false) 0) 1) exq) = Some (false, Some ([], 0), [inject_Z INFINITECOST])) as Hs by (vm_compute; reflexivity).
  destruct (summary_ok _ _ _ _ Hs) as (p'&Er&Hst).
  exists 5%Q, 8%nat, 4%nat, 0%nat, (lset_goal (lset_start (new_lazy false) 0) 1), ex3env, (fun _ => true), exq, 0%nat, 1%nat, 100%nat, p'.
  split_and!.
  - clear Hs Er Hst. split; try done; try lia.
    + apply (lreach_goal false 0 (lset_start (new_lazy false) 0) 1), (lreach_start false 0 (new_lazy false) 0), lreach_new.
    + split; cbn; try lia; try done.
      intros s t c b H. unfold lnbrs, ex3env, lPreds in H. destruct s as [|[|s]]; each. unfold INFINITECOST. repeat split; lia.
  - clear Hs Er Hst. split; cbn; [intros; lia|]. intros u v w H. destruct H as [H|(c&_&<-&H)]; [|cbn in H; lia]. unfold listed, ex3env, lPreds in H. destruct v as [|[|v]]; each; lia.
  - by right.
  - clear Hs Er Hst. intros u v w b H. unfold listed, ex3env, lPreds in H. destruct v as [|[|v]]; each; done.
  - clear Hs Er Hst. replace 5 with (5 + 0) by lia. eapply (route_cons idw); [left; cbn; by apply elem_of_list_singleton|constructor].
  - exact Er.
Qed.

(** The hypotheses can be met, and what the theorems say of such calls is not vacuous. *)
Example C59_nonvacuous : lcall true 5 8 4 0 explanner (exenv 9) (fun _ => true) exq 0 1 /\ informed true (exenv 9) /\ no_timeout exq (fun _ => true).
Proof. split; [apply ex_call; [lia|]|split; [apply ex_informed|by right]]. apply exq_good. Qed.
(** An estimate that is looked up and is right, and a second search with the same object. *)
Example C60_run : summary (lreplan 100 (exenv 3) (fun _ => true) explanner exq) = Some (true, Some ([0; 2; 6; 1]%nat, 12), [5; 1]%Q).
Proof. vm_compute. reflexivity. Qed.
Example C60_second : match lreplan 100 (exenv 3) (fun _ => true) explanner exq with
  | Ok r => summary (lreplan 100 (exenv (-1)) (fun _ => true) (lset_goal (lset_start r.2 0) 1) (mkLP 1 1 4 true)) | _ => None end
  = Some (true, Some ([0; 7; 4; 6; 1]%nat, 15), [1]%Q).
Proof. vm_compute. reflexivity. Qed.
Example C61_run : summary (lreplan 100 (exenv 3) (fun _ => true) (lset_goal (lset_start (new_lazy true) 1) 0) exq) = Some (false, Some ([], 0), [inject_Z INFINITECOST]).
Proof. vm_compute. reflexivity. Qed.

Print Assumptions C59_lazy_replan_total.
Print Assumptions C59_lazy_no_start_or_goal.
Print Assumptions C59_lazy_free_total.
Print Assumptions C59_lazy_setters.
Print Assumptions C60_lazy_path.
Print Assumptions C60_lazy_path_real.
Print Assumptions C60_lazy_real_after_timeout_refuted.
Print Assumptions C60_lazy_backward_start_to_goal_refuted.
Print Assumptions C61_lazy_failure.
Print Assumptions C62_lazy_bound.
Print Assumptions C62_lazy_anytime_bound.
Print Assumptions C62_lazy_reported_bound_refuted.
