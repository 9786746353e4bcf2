(** C47-C50: the multi-heuristic A* planner. *)
From Coq Require Import ZifyBool ZifyNat QArith Qround Lqa.
From Verif Require Import Base KeyModel HeapModel HeapProofs AngleModel AngleProofs AraModel AraSpec AraProofs MhaModel MhaSpec MhaProofs MhaProofs2.
Local Open Scope Z_scope.

Lemma small_spec n eps e : small n eps e -> exists M H, (forall s t x, (t, x) ∈ meSuccs e s -> x <= M) /\ 0 <= M /\ (forall i s, (i <= n)%nat -> meH e i s <= H) /\ 0 <= H /\
  (inject_Z (2 * Z.of_nat (meSize e) * M) + eps * inject_Z H < inject_Z INFINITECOST)%Q.
Proof. intros (M&H&?&?&?&?&?). exists M, H. done. Qed.
Lemma check_fail e clk p par r p' : check_params (hEps2 p) (hMax p) par = false -> mreplan e clk p par = Ok (r, p') -> r = None /\ p' = p.
Proof. intros Hc HE. unfold mreplan in HE. rewrite Hc in HE. cbn [negb] in HE. by injection HE as <- <-. Qed.

Lemma edge_inf n e par : good_menv n (qInit par) e -> forall s t x, (t, x) ∈ meSuccs e s -> x <= INFINITECOST.
Proof. intros HG u t x Hx. destruct (gm_edge _ _ _ HG u t x Hx). lia. Qed.
Section use.
Context (n : nat) (e : menv) (clk : nat -> bool) (p : mha) (par : mparams) (s g : nat).
Context (HR : mreach n (meSize e) p) (HG : good_menv n (qInit par) e) (Hs : hStart p = Some s) (Hg : hGoal p = Some g).
Lemma use_spec con M r p' : (con = true -> consistent e g) -> (forall s t x, (t, x) ∈ meSuccs e s -> x <= M) -> 0 <= M ->
  check_params (hEps2 p) (hMax p) par = true -> mreplan e clk p par = Ok (r, p') ->
  exists ms v, (1 <= qInit par)%Q /\ (1 <= hEps2 p)%Q /\ 1 <= hCall p + 1 /\
    ST e n (qInit par) (hCall p + 1) s g con M (hC p') ms v (mget_n_expands p') /\ hEps2 p' = hEps2 p /\
    (qFirst par = false -> 0 < hMax p -> mget_n_expands p' <= hMax p - 1 + Z.max 1 (Z.of_nat n)) /\
    match r with
    | None => mget_eps p' = inject_Z INFINITECOST /\ (ms !! 0%nat = Some ∅ \/ reached_limit clk par (hMax p))
    | Some (path, cost) => mget_eps p' = (qInit par * hEps2 p)%Q /\ found e n (hEps2 p) (hCall p + 1) g (hC p') ms /\
        let G := mG (lkm e n (hCall p + 1) (hC p') g) in
        ((G < INFINITECOST /\ cost = G /\ exists C, route (fun x => x) (medge e) path s g C /\ C <= cost) \/
         (G = INFINITECOST /\ path = [g] /\ cost = 0 /\ g <> s))
    end.
Proof.
  intros Hcon HM HM0 Hchk HE. pose proof (mreach_PI _ _ _ HR) as P. pose proof (pi_call _ _ _ P).
  destruct (replan_spec e n p par clk con M s g P HG Hs Hg Hchk Hcon HM HM0) as (r0&p0&ms&v&E&_&H1&H2&H3&H4&H5&H6).
  rewrite E in HE. injection HE as <- <-. exists ms, v. split_and!; try done. lia.
Qed.
End use.

(** C47: a returned path is a path of the environment from the start to the goal and costs at most the reported cost, provided no priority can
    reach INFINITECOST; without that proviso, whenever the path begins at the start. *)
Theorem C47_path_valid : forall n e clk p par s g path cost p', mreach n (meSize e) p -> good_menv n (qInit par) e ->
  hStart p = Some s -> hGoal p = Some g -> mreplan e clk p par = Ok (Some (path, cost), p') -> small n (qInit par) e \/ head path = Some s ->
  exists C, route (fun x => x) (medge e) path s g C /\ C <= cost < INFINITECOST.
Proof.
  intros n e clk p par s g path cost p' HR HG Hs Hg HE Hor.
  destruct (check_params (hEps2 p) (hMax p) par) eqn:Hchk; [|by destruct (check_fail _ _ _ _ _ _ Hchk HE)].
  destruct Hor as [Hsm|Hhd].
  - destruct (small_spec _ _ _ Hsm) as (M&H&HM&HM0&HH&HH0&HB).
    destruct (use_spec n e clk p par s g HR HG Hs Hg false M _ _ ltac:(done) HM HM0 Hchk HE) as (ms&v&H1&H2&H3&S&_&_&_&F&[(Hfin&->&C&HC&Hle)|(Hinf&_)]).
    + exists C. split; [done|lia].
    + exfalso. pose proof (found_fin e n (qInit par) (hEps2 p) (hCall p + 1) s g false M HG H1 HM HM0 H HH HB (hC p') ms v (mget_n_expands p') S F). lia.
  - destruct (use_spec n e clk p par s g HR HG Hs Hg false INFINITECOST _ _ ltac:(done) (edge_inf n e par HG) ltac:(done) Hchk HE) as (ms&v&H1&H2&H3&S&_&_&_&F&[(Hfin&->&C&HC&Hle)|(_&->&_&Hne)]).
    + exists C. split; [done|lia].
    + cbn in Hhd. congruence.
Qed.
Print Assumptions C47_path_valid.
(** "The path begins at the start" can fail although replan reports success: heuristic INFINITECOST at the start, goal unreachable. *)
Definition lone : menv := mkMEnv 2 (fun _ => []) (fun _ s => if decide (s = 0%nat) then INFINITECOST else 0).
Definition sg (n : nat) (e : menv) (s g : nat) : option mha :=
  match mset_start e (new_mha n) s with Ok p => match mset_goal e p g with Ok p => Some p | _ => None end | _ => None end.
Lemma sg_reach n e s g p : sg n e s g = Some p -> mreach n (meSize e) p /\ hStart p = Some s /\ hGoal p = Some g.
Proof.
  unfold sg. intros H. destruct (mset_start e (new_mha n) s) as [p1| | |] eqn:E1; try done. destruct (mset_goal e p1 g) as [p2| | |] eqn:E2; try done. injection H as <-.
  split; [eapply mreach_goal; [|exact E2]; eapply mreach_start; [apply mreach_new|exact E1]|].
  unfold mset_start in E1. destruct (get_state _ _ _ s); try done. cbn [obind] in E1. injection E1 as <-. unfold mset_goal in E2. destruct (get_state _ _ _ g); try done. cbn [obind] in E2. injection E2 as <-. done.
Qed.
Definition def_par (t : Q) (first : bool) : mparams := mkMP 1 1 (2 # 10) first t.
Lemma lone_good n : good_menv n 1 lone.
Proof.
  split; cbn [lone meSize meSuccs meH]; try lia.
  - intros s t c Hc. by apply elem_of_nil in Hc.
  - intros i s _. destruct (decide (s = 0%nat)); unfold INFINITECOST; lia.
  - intros i s _. destruct (decide (s = 0%nat)); done.
Qed.
Theorem C47_false_success_refuted : exists p p', sg 1 lone 0 1 = Some p /\ good_menv 1 1 lone /\
  (forall l C, ~ route (fun x => x) (medge lone) l 0 1 C) /\ mreplan lone (fun _ => true) p (def_par 10 false) = Ok (Some ([1%nat], 0), p').
Proof.
  destruct (sg 1 lone 0 1) as [p|] eqn:Ep; [|by vm_compute in Ep]. exists p.
  assert (exists p', mreplan lone (fun _ => true) p (def_par 10 false) = Ok (Some ([1%nat], 0), p')) as [p' E].
  { assert (sg 1 lone 0 1 = Some p) as Ep' by exact Ep. vm_compute in Ep'. injection Ep' as <-. eexists. vm_compute. reflexivity. }
  exists p'. split; [done|]. split; [apply lone_good|]. split; [|exact E].
  intros l C Hr. inversion Hr as [|? b ? ? ? ? Hx]; subst. by apply elem_of_nil in Hx.
Qed.
Print Assumptions C47_false_success_refuted.

(** C48: with a consistent anchor heuristic, the cost is at most eps_mha times the cost of every path with edge costs inflated by eps and rounded up;
    for integer eps, at most get_solution_eps() times the cost of every path. *)
Theorem C48_bound : forall n e clk p par s g path cost p', mreach n (meSize e) p -> good_menv n (qInit par) e -> consistent e g ->
  hStart p = Some s -> hGoal p = Some g -> mreplan e clk p par = Ok (Some (path, cost), p') ->
  mget_eps p' = (qInit par * hEps2 p)%Q /\
  (forall l C, route (inflate (qInit par)) (medge e) l s g C -> (inject_Z cost <= hEps2 p * inject_Z C)%Q) /\
  (forall l C, route (fun x => x) (medge e) l s g C ->
     (inject_Z cost <= mget_eps p' * inject_Z C + hEps2 p * inject_Z (Z.of_nat (length l - 1)))%Q /\
     (forall k, (qInit par == inject_Z k)%Q -> (inject_Z cost <= mget_eps p' * inject_Z C)%Q)).
Proof.
  intros n e clk p par s g path cost p' HR HG Hc Hs Hg HE.
  destruct (check_params (hEps2 p) (hMax p) par) eqn:Hchk; [|by destruct (check_fail _ _ _ _ _ _ Hchk HE)].
  destruct (use_spec n e clk p par s g HR HG Hs Hg true INFINITECOST _ _ ltac:(done) (edge_inf n e par HG) ltac:(done) Hchk HE) as (ms&v&H1&H2&H3&S&_&_&Hsat&F&Hres).
  split; [done|].
  assert (forall l C, route (inflate (qInit par)) (medge e) l s g C -> (inject_Z cost <= hEps2 p * inject_Z C)%Q) as HB.
  { intros l C Hr. pose proof (found_bound e n (qInit par) (hEps2 p) (hCall p + 1) s g true INFINITECOST HG H1 H2 ltac:(done) (edge_inf n e par HG) (hC p') ms v (mget_n_expands p') S eq_refl F l C Hr) as Hb.
    destruct Hres as [(_&->&_)|(_&_&->&_)]; [done|]. apply Qmult_le_0_compat; [lra|]. pose proof (route_nonneg e n (qInit par) true INFINITECOST HG (edge_inf n e par HG) l s g C Hr) as H0. by rewrite Zle_Qle in H0. }
  split; [done|]. intros l C Hr. destruct (inflate_route e n (qInit par) l s g C HG H1 Hr) as (C2&HR2&Hle&Hi). pose proof (HB l C2 HR2) as Hb. rewrite Hsat.
  split.
  - eapply Qle_trans; [exact Hb|]. eapply Qle_trans; [apply Qmult_le_l; [lra|exact Hle]|]. apply Qle_lteq. right. ring.
  - intros k Hk. rewrite (Hi k Hk) in Hb. rewrite inject_Z_mult in Hb. eapply Qle_trans; [exact Hb|]. apply Qle_lteq. right. rewrite Hk. ring.
Qed.
Print Assumptions C48_bound.

(** C49: replan always returns normally when start and goal are set, and without limits "no solution" means that there is no path. *)
Theorem C49_total : forall n e clk p par s g, mreach n (meSize e) p -> good_menv n (qInit par) e -> hStart p = Some s -> hGoal p = Some g ->
  exists r p', mreplan e clk p par = Ok (r, p').
Proof.
  intros n e clk p par s g HR HG Hs Hg. destruct (check_params (hEps2 p) (hMax p) par) eqn:Hchk.
  - destruct (replan_spec e n p par clk false INFINITECOST s g (mreach_PI _ _ _ HR) HG Hs Hg Hchk ltac:(done) (edge_inf n e par HG) ltac:(done)) as (r&p'&_&_&E&_). eauto.
  - unfold mreplan. rewrite Hchk. cbn [negb]. eauto.
Qed.
Print Assumptions C49_total.
Theorem C49_complete : forall n e clk p par s g p', mreach n (meSize e) p -> good_menv n (qInit par) e -> small n (qInit par) e -> hStart p = Some s -> hGoal p = Some g ->
  unlimited p par clk -> check_params (hEps2 p) (hMax p) par = true -> mreplan e clk p par = Ok (None, p') -> forall l C, ~ route (fun x => x) (medge e) l s g C.
Proof.
  intros n e clk p par s g p' HR HG Hsm Hs Hg Hu Hchk HE. destruct (small_spec _ _ _ Hsm) as (M&H&HM&HM0&HH&HH0&HB).
  destruct (use_spec n e clk p par s g HR HG Hs Hg false M _ _ ltac:(done) HM HM0 Hchk HE) as (ms&v&H1&H2&H3&S&_&_&_&[Hemp|Hl]).
  - exact (exhausted e n (qInit par) (hCall p + 1) s g false M H1 HM HM0 H HH HH0 HB (hC p') ms v (mget_n_expands p') S Hemp).
  - exfalso. by apply (unlimited_spec p par clk Hu).
Qed.
Print Assumptions C49_complete.

(** C50: a search expands every state at most twice (once per kind of queue); an expansion limit N is respected up to one round of the heuristics. *)
Theorem C50_expansions : forall n e clk p par s g r p', mreach n (meSize e) p -> good_menv n (qInit par) e -> hStart p = Some s -> hGoal p = Some g ->
  check_params (hEps2 p) (hMax p) par = true -> mreplan e clk p par = Ok (r, p') ->
  0 <= mget_n_expands p' <= 2 * Z.of_nat (meSize e) /\
  (qFirst par = false -> 0 < hMax p -> mget_n_expands p' <= hMax p - 1 + Z.max 1 (Z.of_nat n)).
Proof.
  intros n e clk p par s g r p' HR HG Hs Hg Hchk HE.
  destruct (use_spec n e clk p par s g HR HG Hs Hg false INFINITECOST _ _ ltac:(done) (edge_inf n e par HG) ltac:(done) Hchk HE) as (ms&v&H1&H2&H3&S&_&L&_).
  split; [|done]. rewrite (st_cnt _ _ _ _ _ _ _ _ _ _ _ _ S). apply (cnt_le e n (hCall p + 1) false).
Qed.
Print Assumptions C50_expansions.

(** * Cases that meet the hypotheses *)
Ltac dec := apply (bool_decide_unpack _); vm_compute; exact I.
(** 0 -> 1 -> 3 costs 3, 0 -> 2 -> 3 costs 5; 4 is unreachable. The anchor is the distance to 3, the additional heuristic prefers 2. *)
Definition dia : menv := mkMEnv 5
  (fun s => match s with O => [(1%nat, 2); (2%nat, 1)] | S O => [(3%nat, 1)] | S (S O) => [(3%nat, 4)] | _ => [] end)
  (fun i s => match i, s with O, O => 3 | O, S O => 1 | O, S (S O) => 4 | S _, O => 1 | S _, S O => 10 | _, _ => 0 end).
Lemma dia_edge s t c : (t, c) ∈ meSuccs dia s -> (t < 5)%nat /\ 0 <= c <= 4 /\ meH dia 0 s <= c + meH dia 0 t.
Proof.
  destruct s as [|[|[|s]]]; cbn [dia meSuccs]; intros H; rewrite ?elem_of_cons, elem_of_nil in H; destruct_or? H; simplify_eq; try done; cbn; lia.
Qed.
Lemma dia_heur i s : 0 <= meH dia i s <= 10.
Proof. cbn [dia meH]. destruct i, s as [|[|[|s]]]; lia. Qed.
Lemma dia_good n k : 1 <= k <= 1000000 -> good_menv n (inject_Z k) dia.
Proof.
  intros Hk. split; [cbn; lia| | |].
  - intros s t c Hc. destruct (dia_edge s t c Hc) as (?&?&_). unfold INFINITECOST. split; [done|lia].
  - intros i s _. apply dia_heur.
  - intros i s _. rewrite <- inject_Z_mult, <- Zlt_Qlt. pose proof (dia_heur i s). nia.
Qed.
Lemma dia_small n k : 1 <= k <= 1000000 -> small n (inject_Z k) dia.
Proof.
  intros Hk. exists 4, 10. split_and!; try lia; [|intros; apply dia_heur|].
  - intros s t c Hc. destruct (dia_edge s t c Hc) as (_&?&_). lia.
  - rewrite <- inject_Z_mult, <- inject_Z_plus, <- Zlt_Qlt. cbn [dia meSize]. unfold INFINITECOST. lia.
Qed.
Lemma dia_consistent : consistent dia 3.
Proof. split; [done|]. intros s t c Hc. apply (dia_edge s t c Hc). Qed.
(** With eps = 1 and eps_mha = 3 the search finds the dearer path 0-2-3 of cost 5 <= 3 * 3; towards 4 it fails. *)
Example mha_nonvacuous : exists p p' q q', sg 1 dia 0 3 = Some p /\ sg 1 dia 0 4 = Some q /\
  good_menv 1 1 dia /\ small 1 1 dia /\ consistent dia 3 /\ unlimited (mset_eps2 q 3) (def_par 0 false) (fun _ => true) /\
  check_params 3 0 (def_par 0 false) = true /\
  mreplan dia (fun _ => true) (mset_eps2 p 3) (def_par 0 false) = Ok (Some ([0; 2; 3]%nat, 5), p') /\ mget_n_expands p' = 2 /\
  mreplan dia (fun _ => true) (mset_eps2 q 3) (def_par 0 false) = Ok (None, q').
Proof.
  destruct (sg 1 dia 0 3) as [p|] eqn:Ep; [|by vm_compute in Ep]. destruct (sg 1 dia 0 4) as [q|] eqn:Eq; [|by vm_compute in Eq].
  vm_compute in Ep. injection Ep as <-. vm_compute in Eq. injection Eq as <-.
  eexists _, _, _, _. split; [done|]. split; [done|]. split; [by apply (dia_good 1 1)|]. split; [by apply (dia_small 1 1)|]. split; [apply dia_consistent|].
  split; [right; split; [by left|done]|]. split; [done|]. split; [vm_compute; reflexivity|]. split; [reflexivity|]. vm_compute. reflexivity.
Qed.
(** C50: a limit of one expansion is exceeded with two additional heuristics, and ignored when return_first_solution is set. *)
Theorem C50_exact_limit_refuted : exists p p', sg 2 dia 0 4 = Some p /\ mreplan dia (fun _ => true) (mset_max p 1) (def_par 0 false) = Ok (None, p') /\ mget_n_expands p' = 2.
Proof.
  destruct (sg 2 dia 0 4) as [p|] eqn:Ep; [|by vm_compute in Ep]. vm_compute in Ep. injection Ep as <-.
  eexists _, _. split; [done|]. split; [vm_compute; reflexivity|reflexivity].
Qed.
Print Assumptions C50_exact_limit_refuted.
Theorem C50_limit_ignored_refuted : exists p p', sg 0 dia 0 4 = Some p /\ mreplan dia (fun _ => true) (mset_max p 1) (def_par 0 true) = Ok (None, p') /\ mget_n_expands p' = 4.
Proof.
  destruct (sg 0 dia 0 4) as [p|] eqn:Ep; [|by vm_compute in Ep]. vm_compute in Ep. injection Ep as <-.
  eexists _, _. split; [done|]. split; [vm_compute; reflexivity|reflexivity].
Qed.
Print Assumptions C50_limit_ignored_refuted.
