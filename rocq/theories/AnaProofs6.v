From Coq Require Import ZifyBool ZifyNat QArith Qround Lqa.
From Verif Require Import Base KeyModel HeapModel HeapProofs ListModel ListProofs AngleModel AngleProofs AraModel AraSpec AraProofs AraProofs3 AraPath AraProofs7 AnaModel AnaSpec AnaProofs AnaProofs2 AnaProofs3 AnaProofs4 AnaProofs5.
Local Open Scope Z_scope.

Section planner.
Context (fwd con : bool) (G : nat -> list (nat * Z)) (e : aenv) (s g : nat).
Notation alinv := (alinv G e fwd con s g).
Notation ngl := (ngl e fwd g).
Notation ncur := (ncur g).
Notation sr := (sr G (fun c => c)).
Context (Hge : good_env fwd 1 G e) (Hsees : asees fwd con G e (Some g)).

Lemma aGetSearchPath_spec p m : alinv p m -> ngl p < INFINITECOST ->
  exists path c' C, aGetSearchPath e p = Ok (path, c') /\ alinv (with_ncore p c') m /\
    sG (lk e fwd (nCall p) c' g) = ngl p /\ (ncur p -> current (nCall p) c' g) /\
    route (fun x => x) (eedge fwd e) path (if fwd then s else g) (if fwd then g else s) C /\
    route (fun x => x) (gedge fwd G) path (if fwd then s else g) (if fwd then g else s) C /\ C <= ngl p.
Proof.
  intros L Hfin. pose proof (alinv_bk fwd con G e s g p m L) as B.
  pose proof (Gpos G e fwd Hge) as Hpos.
  assert (sG (lk e fwd (nCall p) (nC p) s) = 0) as H0 by apply (l_inv _ _ _ _ _ _ _ _ L).
  pose proof (alinv_sim fwd con G e s g p m) as Hsim.
  unfold aGetSearchPath. rewrite (l_start _ _ _ _ _ _ _ _ L), (l_goal _ _ _ _ _ _ _ _ L), (l_fwd _ _ _ _ _ _ _ _ L).
  pose proof (below_le e fwd (nCall p) (nC p) g) as Hb. unfold AnaProofs4.ngl in *. destruct fwd.
  - destruct (fwd_route G e (nCall p) s g Hpos (S (eSize e)) g (nC p) B ltac:(lia) Hfin ltac:(lia)) as (c'&l&C&Er&S&_&HR&HC&Hl).
    rewrite Er. cbn [obind]. rewrite (follow_route G 0 g c' _ l s C HR) by lia. cbn [obind].
    eexists _, c', C. split; [reflexivity|]. split; [by apply Hsim|]. destruct (sim_lk e true (nCall p) _ _ g S) as (_&->&_).
    split; [done|]. split; [intros (a&Ha&Hc); destruct S as (_&_&S3&_); destruct (S3 _ a Ha) as (a'&Ha'&(_&_&_&Hc'&_)); exists a'; split; [done|congruence]|].
    destruct (route_head _ _ _ _ _ _ HR) as (l'&->). cbn.
    split; [|split; [|lia]]; (eapply route_impl; [|exact HR]); intros u v w (Hin&Hne&_); unfold eedge, gedge; [|done].
    rewrite (as_edge _ _ _ _ _ Hsees); [done|congruence].
  - destruct (bwd_route G e (nCall p) s g Hpos (nC p) B (S (eSize e)) g ltac:(lia) Hfin ltac:(lia)) as (l&C&HR&HC&Hl).
    rewrite (follow_route G 0 s (nC p) _ l g C HR) by lia. cbn [obind].
    eexists _, (nC p), C. split; [reflexivity|]. split; [by destruct p|]. split; [done|]. split; [done|].
    destruct (route_head _ _ _ _ _ _ HR) as (l'&->). cbn.
    split; [|split; [|lia]]; (eapply route_impl; [|exact HR]); intros u v w ((Hin&Hv0)&Hne&_); unfold eedge, gedge; [|done].
    rewrite (as_edge _ _ _ _ _ Hsees); [done|congruence].
Qed.

(** What a search that begins with some time left returns. *)
Definition aok (p : ana) (clk : nat -> bool) (b : bool) (path : list nat) (cost : Z) (p' : ana) : Prop :=
  (exists m', alinv p' m') /\ ncur p' /\ cost = ngl p' /\ 0 <= cost <= INFINITECOST /\ (b = true <-> cost < INFINITECOST) /\
  (b = false -> path = []) /\
  (b = true -> exists C, route (fun x => x) (eedge fwd e) path (if fwd then s else g) (if fwd then g else s) C /\
    route (fun x => x) (gedge fwd G) path (if fwd then s else g) (if fwd then g else s) C /\ C <= cost) /\
  satok G con s g (nSat p') cost /\
  (nReinit p = false -> cost <= ngl p) /\
  ((forall i, clk i = true) -> con = true -> (nFirst p = false \/ b = false) -> forall C, sr s g C -> C < INFINITECOST -> cost <= C).

Context (p : ana) (clk : nat -> bool).
Context (P : apinv fwd con G e p) (Hs : nStart p = Some s) (Hg : nGoal p = Some g) (Hc : nCall p + 1 < 65536) (Hk : clk 0%nat = true).

Lemma cost_empty q m C : alinv q m -> con = true -> m = ∅ -> sr s g C -> ngl q <= C.
Proof.
  intros L Hcon -> HC. pose proof (l_inv _ _ _ _ _ _ _ _ L) as I. pose proof (ai_GG _ _ _ _ _ _ _ _ _ _ I) as HGG.
  destruct (decide (nG q <= C)) as [?|?]; [unfold AnaProofs4.ngl; lia|].
  destruct (afrontier G e fwd con Hge (nCall q) s g (nG q) (nC q) ∅ C Hcon Hsees I HC ltac:(lia)) as [?|(u&[? Hu]&_)]; [done|].
  by rewrite lookup_empty in Hu.
Qed.

Lemma asearch_total : (forall i j, (i <= j)%nat -> clk j = true -> clk i = true) ->
  exists N, forall fuel, (N <= fuel)%nat -> exists r, areplan fuel e clk p = Ok r.
Proof.
  intros Hclk. destruct (astart_spec fwd con G e p s g P Hs Hg Hc) as (p1&m1&E1&L1&Hf1&Hc1&Hr1).
  exists (Z.to_nat ((Z.of_nat (eSize e) + 1) * INFINITECOST + 4)). intros fuel HN. unfold areplan, aSearch. rewrite E1. cbn [obind].
  pose proof (clk_meas G e fwd con s g p1 m1 L1) as Hm.
  destruct (asearch_loop_spec G e fwd con s g Hge Hsees fuel clk Hclk ltac:(lia) fuel p1 m1 0 L1 ltac:(left; lia))
    as (p2&m2&n2&E2&L2&S2&Hg2&_&C2&_).
  rewrite E2. cbn [obind fst snd]. rewrite (l_goal _ _ _ _ _ _ _ _ L2). specialize (C2 Hk).
  pose proof (rdst_current e fwd (nCall p2) (nC p2) g C2) as Erd. rewrite Erd. cbn [obind].
  destruct (sG (lk e fwd (nCall p2) (nC p2) g) =? INFINITECOST) eqn:Ei; [eauto|].
  destruct (aGetSearchPath_spec p2 m2 L2) as (path&c'&C&E3&_).
  { pose proof (ai_g _ _ _ _ _ _ _ _ _ _ (l_inv _ _ _ _ _ _ _ _ L2) g). unfold AnaProofs4.ngl. lia. }
  rewrite E3. cbn [obind]. eauto.
Qed.

Lemma asearch_spec fuel b path cost p' : areplan fuel e clk p = Ok (b, path, cost, p') -> aok p clk b path cost p'.
Proof.
  destruct (astart_spec fwd con G e p s g P Hs Hg Hc) as (p1&m1&E1&L1&Hf1&Hc1&Hr1).
  unfold areplan, aSearch. rewrite E1. cbn [obind]. intros HE. apply obind_ok in HE as (r&E2&HE).
  destruct (asearch_loop_inv G e fwd con s g Hge Hsees fuel fuel clk p1 m1 0 r L1 E2) as (m2&L2&S2&Hg2&C2).
  specialize (C2 ltac:(by left)). set (p2 := r.1) in *.
  rewrite (l_goal _ _ _ _ _ _ _ _ L2) in HE. pose proof (rdst_current e fwd (nCall p2) (nC p2) g C2) as Erd. rewrite Erd in HE. cbn [obind] in HE.
  change (sG (lk e fwd (nCall p2) (nC p2) g)) with (ngl p2) in HE.
  pose proof (ai_g _ _ _ _ _ _ _ _ _ _ (l_inv _ _ _ _ _ _ _ _ L2) g) as Hrange.
  assert (0 <= ngl p2 <= INFINITECOST) as Hr2 by (unfold AnaProofs4.ngl; lia).
  assert (nReinit p = false -> ngl p2 <= ngl p) as Hless by (intros Hr; rewrite (Hr1 Hr) in Hg2; done).
  assert ((forall i, clk i = true) -> con = true -> (nFirst p = false \/ ngl p2 = INFINITECOST) -> forall C, sr s g C -> C < INFINITECOST -> ngl p2 <= C) as Hopt.
  { intros Hclk Hcon Hor C HC HCI.
    pose proof (clk_meas G e fwd con s g p1 m1 L1) as Hm.
    set (N := Nat.max fuel (Z.to_nat ((Z.of_nat (eSize e) + 1) * INFINITECOST + 4))).
    assert (Z.of_nat N >= (Z.of_nat (eSize e) + 1) * INFINITECOST + 4) as HN by (unfold N; lia).
    apply (asearch_loop_fuel G e fwd con s g Hge Hsees fuel fuel N N clk ltac:(lia) ltac:(lia) p1 m1 0 r L1) in E2.
    destruct (asearch_loop_spec G e fwd con s g Hge Hsees N clk ltac:(done) ltac:(lia) N p1 m1 0 L1 ltac:(left; lia))
      as (p3&m3&n3&E3&L3&_&_&_&_&Hres).
    rewrite E3 in E2. injection E2 as Er. assert (p2 = p3) as Ep by (unfold p2; by rewrite <- Er). rewrite Ep.
    destruct Hres as [(j&_&Hj)|[[Hm3|Hsat]|[Hfi Hx]]].
    - by rewrite Hclk in Hj.
    - by apply (cost_empty p3 m3).
    - destruct (l_sat _ _ _ _ _ _ _ _ L3) as (Hq1&Hq2&Hq3). specialize (Hq3 Hcon C HC). unfold rgt in Hsat. cbn in Hsat.
      assert ((nSat p3).2 = (nSat p3).1) as Heq by lia. rewrite Heq in Hq3. nia.
    - destruct Hx as [Hm3|Hlt]; [by apply (cost_empty p3 m3)|]. rewrite Hf1 in Hfi. destruct Hor as [?|Hinf]; [congruence|].
      rewrite Ep in Hinf. lia. }
  destruct (ngl p2 =? INFINITECOST) eqn:Ei.
  - injection HE as <- <- <- <-. unfold aok. split_and!; try done; try lia; eauto.
    + apply L2.
  - destruct (aGetSearchPath_spec p2 m2 L2) as (path2&c'&C&E3&L3&Hgl&Hcu&HR1&HR2&HC); [lia|].
    rewrite E3 in HE. injection HE as <- <- <- <-. unfold aok, AnaProofs4.ngl, AnaProofs4.ncur, with_ncore; ncbn.
    split_and!; try done; try lia.
    + by exists m2.
    + auto.
    + split; [intros _; unfold AnaProofs4.ngl in *; lia|done].
    + intros _. by exists C.
    + apply L2.
    + intros H1 H2 [H3|?]; [|done]. apply Hopt; auto.
Qed.
End planner.
