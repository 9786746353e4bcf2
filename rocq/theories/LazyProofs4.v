(** The main loop of LazyARA* and the extraction of the path. *)
From Coq Require Import ZifyBool ZifyNat QArith Qround Lqa.
From Verif Require Import Base KeyModel HeapModel HeapProofs AngleModel AngleProofs AraModel AraSpec AraProofs AraPath MhaProofs LazyModel LazySpec LazyPq LazyProofs LazyProofs2 LazyProofs3.
Local Open Scope Z_scope.

Lemma Qltb_nlt x y : Qltb x y = false <-> (~ x < y)%Q.
Proof. destruct (Qltb_spec x y); split; done. Qed.
Lemma u16_id x : 0 <= x < 65536 -> u16 x = x.
Proof. intros. unfold u16. by apply Z.mod_small. Qed.
Section run.
Context (e : lenv) (fwd : bool) (E : Q) (N : nat) (rep : Z) (start goal : nat).
Context (HG : good_lenv fwd E N e) (Hz : zero_at e fwd goal) (Hrep : 0 <= rep < 65535) (HsN : (start < N)%nat) (HgN : (goal < N)%nat).
Notation nb := (lnbrs e fwd).
Notation hr := (lheur e fwd).
Notation tc := (ltcost e fwd).
Notation lkz := (lkz e fwd rep).
Notation lz := (lz rep).
Notation g c s := (lG (lkz c s)).
Notation v c s := (lV (lkz c s)).
Notation cl c s := (lClosed (lkz c s)).
Notation ls c s := (lList (lkz c s)).
Notation tr c s := (lTrue (lkz c s)).
Notation bp c s := (lBest (lkz c s)).
Notation xp c s := (lExp (lkz c s)).
Notation VI := (VI e fwd N rep start goal).
Notation sedge := (sedge e fwd).
Notation Phi := (Phi e fwd N rep).
Notation srg := (srg e fwd start goal).
Notation BI := (BI e fwd rep start goal).
Notation alltrue := (alltrue e fwd).
Notation goaled := (goaled e fwd rep goal).
Notation eqinc := (eqinc e fwd rep).
Notation VI_ x y := (x _ _ _ _ _ _ _ _ _ _ _ _ y) (only parsing).
Notation idw := (fun x : Z => x).

(** What the environment has to fulfil for bounds. *)
Definition inf : Prop := (forall p t c, (t, c, false) ∈ nb p -> 0 < tc p t -> c <= tc p t) /\ (forall p t w, sedge p t w -> hr p <= w + hr t).

Lemma isteps_v eps iter c m c' m' : isteps e fwd N rep start goal eps iter false c m c' m' -> forall u, v c' u <= v c u.
Proof using All.
  induction 1 as [c m I|c m c1 m1 c2 m2 I S1 HS IH]; intros u; [lia|]. specialize (IH u).
  assert (v c1 u <= v c u); [|lia].
  destruct S1 as [s c0 c3 m3 H1 H2 H3 H4 H5 H6 H7 H8 H9 H10 H11|s c0 m0 p c3 m3 H1 H2 H3 H4 H5 H6 H7 H8 H9].
  - assert (forall w, v c1 w = v c3 w) as Hv.
    { clear -H11. intros w. induction H11 as [c|t cost b ns c c1 c2 m m1 I I1 C Hsl HE IH]; [done|].
      rewrite IH. apply (ins_case_v _ _ _ _ _ _ _ _ _ _ C). }
    rewrite Hv. destruct H8 as (X1&X2&_). destruct (decide (u = s)) as [->|Hn]; [rewrite X2, H7; lia|rewrite X1, H7 by done; lia].
  - assert (v c1 u = v c3 u) as ->.
    { destruct H9 as [[_ ->]|(_&_&C)]; [done|]. apply (ins_case_v _ _ _ _ _ _ _ _ _ _ C). }
    assert (frame e fwd rep c0 c3 s) as F by by destruct H8. rewrite (frame_v _ _ _ _ _ _ _ F), H3. lia.
Qed.

(** All edges have true costs: nothing is ever waiting for evaluation. *)
Lemma alltrue_tr eps iter ex c m : VI eps iter false ex c m -> alltrue -> forall t, tr c t = true.
Proof using All.
  intros I Ha t. destruct (tr c t) eqn:Et; [done|]. exfalso.
  destruct (VI_ v_tr I t Et) as [Hlt|[_ ?]]; [|done].
  destruct (decide (t = start)) as [->|Hts]; [rewrite (proj2 (VI_ v_start I)) in Et; done|].
  pose proof (VI_ v_rng I t). destruct (VI_ v_slot I t Hts) as (p&c0&_&_&_&Hs0&_); [lia|].
  rewrite Et in Hs0. cbn in Hs0. by apply Ha in Hs0.
Qed.

Lemma BI_init q c' : lkz c' start = mkL INFINITECOST 0 (hr start) 65535 rep None None false [] true ->
  (forall u, u <> start -> lkz c' u = fresh_lstate e fwd rep u) -> BI (xInit q) 0 nopend c'.
Proof using. clear HG Hz Hrep HsN HgN.
  intros Hs Hu.
  assert (forall u, v c' u = INFINITECOST) as Hv by (intros u; destruct (decide (u = start)) as [->|]; [by rewrite Hs|by rewrite Hu]).
  assert (forall u, ls c' u = []) as Hl by (intros u; destruct (decide (u = start)) as [->|]; [by rewrite Hs|by rewrite Hu]).
  assert (forall u, cl c' u = 65535) as Hc by (intros u; destruct (decide (u = start)) as [->|]; [by rewrite Hs|by rewrite Hu]).
  split.
  - intros t x. rewrite Hl. intros H. by apply elem_of_nil in H.
  - intros t. rewrite Hl. intros i x y _ Hx. by rewrite lookup_nil in Hx.
  - right. intros s. rewrite Hv. unfold INFINITECOST. lia.
  - intros s t w. rewrite Hv. unfold INFINITECOST. lia.
  - intros s C. rewrite Hc. lia.
Qed.

Lemma BI_next eps eps' iter c1 m1 c2 c3 m3 : 0 <= iter -> iter + 1 < 65535 -> VI eps iter false None c1 m1 -> VI eps' (iter + 1) false None c3 m3 -> BI eps iter nopend c1 ->
  alltrue -> goaled c1 c2 -> eqinc c2 c3 -> BI eps' (iter + 1) nopend c3.
Proof using All.
  intros Hi0 Hi1 I1 I3 B Ha (G1&G2&G3&G4&G5&G6&G7&G8) HE.
  pose proof (alltrue_tr _ _ _ _ _ I3 Ha) as Ht. pose proof (alltrue_tr _ _ _ _ _ I1 Ha) as Ht1.
  assert (forall u, ls c3 u = []) as Hl by (intros; by apply (VI_ v_true I3)).
  assert (forall u, ls c1 u = []) as Hl1 by (intros; by apply (VI_ v_true I1)).
  assert (forall u, v c3 u = v c2 u) as Ev by (intros u; by rewrite (HE u)).
  assert (forall u, g c3 u = g c2 u) as Eg by (intros u; by rewrite (HE u)).
  assert (forall u, cl c3 u = cl c2 u) as Ec by (intros u; by rewrite (HE u)).
  split.
  - intros t x. rewrite Hl. intros H. by apply elem_of_nil in H.
  - intros t. rewrite Hl. intros i x y _ Hx. by rewrite lookup_nil in Hx.
  - by left.
  - intros s t w. rewrite !Ev. intros A1 A2 A3. rewrite (G1 s A2) in *.
    assert (v c2 t <= v c1 t /\ g c2 t <= g c1 t) as [Hvt Hgt] by (destruct (decide (t = goal)) as [->|Hn]; [done|rewrite G1 by done; lia]).
    destruct (b_edge _ _ _ _ _ _ _ _ _ B s t w A1 A2 A3) as [?|[[[? _]|(x&Hx&_)]|[]]].
    + left. lia.
    + right. left. left. rewrite Eg, Ev, (G1 s A2). split; [lia|]. left. apply Ht.
    + rewrite Hl1 in Hx. by apply elem_of_nil in Hx.
  - intros s C Hs _. exfalso. rewrite Ec in Hs. assert (cl c2 s = cl c1 s) as He by (destruct (decide (s = goal)) as [->|]; [done|by rewrite G1]).
    pose proof (VI_ v_cl I1 s). lia.
Qed.

(** * GetSearchPath *)
Lemma getpath_spec eps iter late c m : (0 <= eps <= E)%Q -> 0 <= iter < 65535 -> VI eps iter late None c m -> g c goal <= v c goal -> g c goal < INFINITECOST -> (late = true -> v c goal < INFINITECOST) ->
  exists l C Cx c', LGetSearchPath e fwd c start goal = Ok (l, Cx, c') /\ kOpen c' = kOpen c /\ vrep rep c' /\
    C <= (if v c goal <? INFINITECOST then v c goal else g c goal) /\
    route idw (pedge e fwd goal (if v c goal <? INFINITECOST then negb late else tr c goal)) l (pa fwd start goal) (pz fwd start goal) C /\
    route idw (least e fwd) l (pa fwd start goal) (pz fwd start goal) Cx.
Proof using All.
  intros Heps Hiter I Hgv Hg Hl. unfold LGetSearchPath. pose proof (VI_ v_lz I) as Hlz. rewrite (lz_rd e fwd rep) by done. cbn [obind].
  set (P := match xp c goal with None => true | Some _ => false end).
  set (a1 := mkL (g c goal) (g c goal) (lH (lkz c goal)) (cl c goal) (lRep (lkz c goal)) (bp c goal) (bp c goal) (lInc (lkz c goal)) (ls c goal) (tr c goal)).
  assert (lRep a1 = rep) as Ha1 by apply lkz_rep.
  set (cx := if P then set_l c goal a1 else c).
  assert (lz cx goal) as Hlzx. { unfold cx. destruct P; [|done]. apply lz_set; [done|by left]. }
  assert (vrep rep cx) as Hvx. { unfold cx. destruct P; [apply vrep_set; [apply (VI_ v_rep I)|done]|apply (VI_ v_rep I)]. }
  assert (forall l (C : Z) Cx ok, lfollow e fwd (S (S (size (kSt cx)))) cx start goal [goal] 0 = Ok (goal :: l, Cx) ->
    C <= (if v c goal <? INFINITECOST then v c goal else g c goal) ->
    ok = (if v c goal <? INFINITECOST then negb late else tr c goal) ->
    route idw (pedge e fwd goal ok) (if fwd then reverse (goal :: l) else goal :: l) (pa fwd start goal) (pz fwd start goal) C ->
    route idw (least e fwd) (if fwd then reverse (goal :: l) else goal :: l) (pa fwd start goal) (pz fwd start goal) Cx ->
    exists l0 C0 Cx0 c', (do r <- lfollow e fwd (S (S (size (kSt cx)))) cx start goal [goal] 0;
       do a <- rdl cx goal;
       Ok (if fwd then reverse r.1 else r.1, r.2,
         if P then set_l cx goal (mkL INFINITECOST (lG a) (lH a) (lClosed a) (lRep a) (lBest a) None (lInc a) (lList a) (lTrue a)) else cx)) = Ok (l0, Cx0, c') /\
    kOpen c' = kOpen c /\ vrep rep c' /\ C0 <= (if v c goal <? INFINITECOST then v c goal else g c goal) /\
    route idw (pedge e fwd goal (if v c goal <? INFINITECOST then negb late else tr c goal)) l0 (pa fwd start goal) (pz fwd start goal) C0 /\
    route idw (least e fwd) l0 (pa fwd start goal) (pz fwd start goal) Cx0) as Hfin.
  { intros l C Cx ok HF HC -> HR1 HR2. rewrite HF. cbn [obind fst snd]. rewrite (lz_rd e fwd rep) by done. cbn [obind].
    eexists _, C, _, _. split; [done|]. split_and!; try done.
    - unfold cx. by destruct P.
    - destruct P; [|done]. apply vrep_set; [done|]. cbn. apply lkz_rep. }
  destruct (decide (goal = start)) as [Hgs|Hgs].
  { assert (lfollow e fwd (S (S (size (kSt cx)))) cx start goal [goal] 0 = Ok (goal :: [], 0)) as HF.
    { cbn [lfollow]. by replace (goal =? start)%nat with true by lia. }
    eapply (Hfin [] 0 0 _ HF); [|reflexivity| |].
    - pose proof (VI_ v_rng I goal). destruct (v c goal <? INFINITECOST); lia.
    - unfold pa, pz. rewrite Hgs. destruct fwd; constructor.
    - unfold pa, pz. rewrite Hgs. destruct fwd; constructor. }
  destruct (xp c goal) as [p|] eqn:Ex; subst P cx; cbn match in *.
  - assert (v c goal < INFINITECOST) as Hv.
    { pose proof (VI_ v_rng I goal). destruct (decide (v c goal = INFINITECOST)) as [He|]; [|lia]. rewrite (VI_ v_xp I goal He) in Ex. done. }
    destruct (path_from_goal e fwd E N rep start goal HG Hz Hrep HsN HgN eps iter late c m I Hv) as (l&C&Cx&HF&HC&HR1&HR2).
    apply (Hfin l C Cx (negb late)); try done; by replace (v c goal <? INFINITECOST) with true by lia.
  - assert (v c goal = INFINITECOST) as Hv.
    { pose proof (VI_ v_rng I goal). destruct (decide (v c goal = INFINITECOST)) as [He|]; [done|].
      destruct (VI_ v_back I goal ltac:(lia) Hgs) as (b&(p&c0&Hp&_)&_). congruence. }
    assert (late = false) as -> by (destruct late; [specialize (Hl eq_refl); lia|done]).
    pose proof (VI_goal e fwd E N rep start goal HG Hz Hrep HsN HgN eps iter Heps Hiter c m (g c goal) (bp c goal) I Hgv (Z.le_refl _)) as I1. cbv zeta in I1. fold a1 in I1.
    pose proof (VI_ v_rng I goal) as Hr.
    specialize (I1 ltac:(lia) (fun H => VI_ v_slot I goal H Hg) (fun H => False_ind _ (Hgs H)) (fun _ => eq_refl)).
    assert (v (set_l c goal a1) goal = g c goal) as Ev. { rewrite lkz_set by done. by rewrite decide_True. }
    destruct (path_from_goal e fwd E N rep start goal HG Hz Hrep HsN HgN eps iter _ (set_l c goal a1) m I1) as (l&C&Cx&HF&HC&HR1&HR2); [lia|].
    apply (Hfin l C Cx (negb (negb (tr c goal)))); try done.
    + replace (v c goal <? INFINITECOST) with false by lia. lia.
    + replace (v c goal <? INFINITECOST) with false by lia. apply negb_involutive.
Qed.

(** * The main loop *)
Section loop.
Context (clk : nat -> bool) (q : lparams) (k : nat) (Hclk : clock_ok clk) (Hq : good_lparams E k q).
Notation Kc := (Kc e fwd N).
Notation INFQ := (inject_Z INFINITECOST).
(** The value of the goal is within factor [x] of the optimum. *)
Definition BD (x : Q) (c : lcore) : Prop := forall C, srg (inflate x) goal C -> v c goal <= C.
(** What holds when the loop of Search is about to go round. *)
Record LI (eps sat : Q) (iter : Z) (late : bool) (c : lcore) (m : gmap nat ckey) (st : list Q) (n : nat) : Prop := {
  i_vi : VI eps iter late None c m;
  i_gv : g c goal <= v c goal;
  i_late : late = true -> v c goal < INFINITECOST /\ xFirst q = false /\ clk n = false;
  i_phase : (sat = INFQ /\ late = false /\ eps = xInit q /\ v c goal = INFINITECOST /\ st = [] /\ (inf -> BI eps iter nopend c)) \/
    (v c goal < INFINITECOST /\ last st = Some sat /\ xFirst q = false /\ (inf -> no_timeout q clk -> BD (xInit q) c) /\
     (inf -> alltrue -> late = false /\ BI eps iter nopend c /\ BD sat c))
}.
(** What holds at its end. *)
Definition LR (b : bool) (c : lcore) (st : list Q) : Prop :=
  exists eps iter late m, VI eps iter late None c m /\ (0 <= eps <= E)%Q /\ 0 <= iter < 65535 /\
  g c goal <= v c goal /\ (late = true -> v c goal < INFINITECOST /\ ~ no_timeout q clk) /\
  if b then
    (no_timeout q clk -> v c goal < INFINITECOST /\ (inf -> BD (xInit q) c) /\ (xFirst q = true -> last st = Some (xInit q))) /\
    (inf -> alltrue -> forall x, last st = Some x -> (x < INFQ)%Q -> v c goal < INFINITECOST /\ BD x c)
  else g c goal = INFINITECOST /\ (inf -> forall C, srg (inflate (xInit q)) goal C -> INFINITECOST <= C).

Lemma LI_exit eps sat iter late c m st n : LI eps sat iter late c m st n -> (0 <= eps <= E)%Q -> 0 <= iter < 65535 ->
  Qltb (xFinal q) sat = false \/ xFirst q = false /\ (exists j, clk j = false) -> LR true c st.
Proof using All.
  intros [I Hgv Hl Hp] He Hi Hx. exists eps, iter, late, m. split_and!; try done; try lra; try lia.
  - intros Ht. destruct (Hl Ht) as (?&Hf&Hc). split; [done|]. intros [?|Hn]; [congruence|]. by rewrite Hn in Hc.
  - intros Hnt. destruct Hx as [Hx|[Hx1 [j Hj]]].
    + destruct Hp as [(->&_)|(?&?&?&HB&_)]; [|split_and!; try done; [auto|congruence]]. exfalso.
      apply Qltb_nlt in Hx. apply Hx. destruct Hq as [(_&[_ ?]&_&?&_) _]. lra.
    + exfalso. destruct Hnt as [?|Hn]; [congruence|]. by rewrite Hn in Hj.
  - intros Hinf Ha x Hlast Hxlt. destruct Hp as [(_&_&_&_&->&_)|(?&HL&_&_&HB)]; [done|]. rewrite HL in Hlast. injection Hlast as ->.
    split; [done|]. by apply HB.
Qed.

Lemma search_loop_spec j : forall fuel eps sat iter c m st n, LI eps sat iter false c m st n -> (0 <= eps <= E)%Q -> 0 <= iter -> iter + Z.of_nat j < 65533 ->
  (eps - xFinal q <= inject_Z (Z.of_nat j) * xDec q)%Q -> (Phi iter c + S j * S Kc + 1 < fuel)%nat ->
  exists b c' st' n', lsearch_loop fuel e fwd clk q rep goal eps sat iter c st n = Ok (b, c', st', n') /\ LR b c' st'.
Proof using All.
  induction j as [|j IH]; intros fuel eps sat iter c m st n LIn He Hi0 Hi1 Hj Hf.
  all: destruct fuel as [|fuel]; [lia|]; cbn [lsearch_loop].
  all: destruct (Qltb (xFinal q) sat) eqn:Efin; [|exists true, c, st, n; split; [done|]; apply (LI_exit _ _ _ _ _ _ _ _ LIn); try done; [lia|by left]].
  all: destruct (xFirst q || clk n) eqn:Eclk; [|exists true, c, st, (S n); split; [done|]; apply (LI_exit _ _ _ _ _ _ _ _ LIn); try done; [lia|right]; destruct (xFirst q); cbn in Eclk; [done|split; [done|by exists n]]].
  all: set (n1 := if xFirst q then n else S n).
  all: destruct LIn as [I Hgv _ Hp].
  all: destruct (ImprovePath_spec e fwd E N rep start goal HG Hz Hrep HsN HgN eps iter He ltac:(lia) (xFirst q) clk (S fuel) c m n1 I ltac:(lia)) as
    (ret&c2&m2&n2&c1&late&E1&S1&I1&I2&G2&HP2&Hn2&D1&D2).
  all: rewrite E1; cbn [obind fst snd].
  all: pose proof (isteps_v eps iter c m c1 m2 S1 goal) as Hv1; pose proof G2 as (G3&G4&G5&G6&G7&G8&G9&G10).
  all: assert (v c2 goal <= v c goal) as Hv2 by lia.
  all: assert (late = true -> ~ no_timeout q clk) as Hlate by
    (intros ->; destruct D1 as [[_ ?]|(D11&jj&_&Hjj)]; [done|]; intros [?|Hnt]; [congruence|]; by rewrite Hnt in Hjj).
  all: assert (BD (xInit q) c -> BD (xInit q) c2) as HBDi by (intros HB C HC; specialize (HB C HC); lia).
  all: assert (forall C, at_end e fwd rep goal c1 m2 -> inf -> (inf -> BI eps iter nopend c) -> srg (inflate eps) goal C -> g c2 goal <= C) as Hbound
    by (intros C Hat Hinf HB HC; pose proof Hinf as [Hest Hcons];
        pose proof (BI_steps e fwd E N rep start goal HG Hz Hrep HsN HgN Hest Hcons eps iter He ltac:(lia) c m c1 m2 S1 (HB Hinf)) as B1;
        pose proof (bound_at_end e fwd E N rep start goal HG Hz Hrep HsN HgN Hest Hcons eps iter He ltac:(lia) c1 m2 I1 B1 Hat C HC); lia).
  all: destruct D2 as [(->&->&Hat&Hginf)|[(->&->&Hnat)|(->&Hg2&Hvg2&Hend1)]].
  (* no solution *)
  1,4: cbn [Z.eqb]; exists false, c2, (st ++ [sat]), n2; split; [done|]; exists eps, iter, false, m2; split_and!; try done; try lra; try lia;
    intros Hinf C HC; destruct Hp as [(_&_&Hep&_&_&HB)|(?&_)]; [|lia]; subst eps; specialize (Hbound C Hat Hinf HB HC); lia.
  (* stopped by the clock *)
  1,3: replace (2 =? 0) with false by done; replace (2 =? 1) with false by done; replace (2 =? 2) with true by done; rewrite orb_true_r;
    exists true, c2, (st ++ [sat]), n2; split; [done|]; exists eps, iter, false, m2; split_and!; try done; try lra; try lia;
    [intros Hnt; exfalso; destruct D1 as [[? _]|(D11&jj&_&Hjj)]; [done|]; destruct Hnt as [?|Hnt]; [congruence|]; by rewrite Hnt in Hjj|
     intros Hinf Ha x; rewrite last_snoc; intros [= <-] Hxlt; destruct Hp as [(->&_)|(?&HL&_&_&HB)]; [exfalso; lra|];
     destruct (HB Hinf Ha) as (_&_&HB3); split; [lia|]; intros C HC; specialize (HB3 C HC); lia].
  (* a solution *)
  all: replace (1 =? 0) with false by done; replace (1 =? 1) with true by done; replace (1 =? 2) with false by done; rewrite orb_false_r.
  all: assert (alltrue -> at_end e fwd rep goal c1 m2 /\ late = false) as Hata.
  1,3: intros Ha; apply Hend1; apply (alltrue_tr _ _ _ _ _ I1 Ha).
  all: assert (inf -> no_timeout q clk -> BD (xInit q) c2) as HBi.
  1,3: intros Hinf Hnt; destruct Hp as [(_&_&Hep&_&_&HB)|(_&_&_&HB&_)]; [|by apply HBDi, HB]; subst eps;
       destruct D1 as [[Hat _]|(D11&jj&_&Hjj)]; [intros C HC; specialize (Hbound C Hat Hinf HB HC); lia|exfalso; destruct Hnt as [?|Hnt]; [congruence|]; by rewrite Hnt in Hjj].
  all: assert (inf -> alltrue -> BD eps c2) as HBe.
  1,3: intros Hinf Ha C HC; destruct (Hata Ha) as [Hat _]; enough (g c2 goal <= C) by lia; apply (Hbound C Hat Hinf); [|done];
       intros _; destruct Hp as [(_&_&_&_&_&HB)|(_&_&_&_&HB)]; [by apply HB|by destruct (HB Hinf Ha) as (_&?&_)].
  all: destruct (xFirst q) eqn:Efirst.
  1,3: exists true, c2, (st ++ [eps]), n2; split; [done|]; exists eps, iter, late, m2; split_and!; try done; try lra; try lia;
    [intros Ht; split; [lia|auto]
    |intros Hnt; split_and!; [lia|auto|intros _; rewrite last_snoc; destruct Hp as [(_&_&Hep&_)|(_&_&?&_)]; congruence]
    |intros Hinf Ha x; rewrite last_snoc; intros [= <-] _; split; [lia|auto]].
  all: set (eps' := if Qltb (eps - xDec q) (xFinal q) then xFinal q else (eps - xDec q)%Q).
  all: destruct (prepare_spec e fwd E N rep start goal HG Hz Hrep HsN HgN eps eps' iter late c2 m2 I2 Hi0 ltac:(lia)) as (c3&m3&E3&I3&Q3&HP3).
  all: rewrite E3; cbn [obind].
  all: rewrite u16_id by lia.
  all: assert (0 <= eps' <= E)%Q as He' by
    (destruct Hq as [(?&?&?&?&?) _]; unfold eps'; destruct (Qltb (eps - xDec q) (xFinal q)) eqn:Ex; [lra|apply Qltb_nlt in Ex; lra]).
  all: assert (v c3 goal = v c2 goal /\ g c3 goal = g c2 goal) as [Ev3 Eg3] by (split; by rewrite (Q3 goal)).
  all: assert (LI eps' eps (iter + 1) late c3 m3 (st ++ [eps]) n2) as LI3.
  1,3: split; [done|lia|..];
    [intros Ht; split; [lia|]; split; [done|]; destruct D1 as [[_ ?]|(D11&jj&Hjj1&Hjj2)]; [congruence|]; apply (Hclk jj); [lia|done]
    |right; split_and!; try done; [lia|by rewrite last_snoc|intros Hinf Hnt C HC; rewrite Ev3; by apply HBi|];
     intros Hinf Ha; destruct (Hata Ha) as [_ ->]; split_and!; try done;
     [|intros C HC; rewrite Ev3; by apply HBe];
     pose proof Hinf as [Hest Hcons]; apply (BI_next eps eps' iter c1 m2 c2 c3 m3); try done; [lia|];
     apply (BI_steps e fwd E N rep start goal HG Hz Hrep HsN HgN Hest Hcons eps iter He ltac:(lia) c m c1 m2 S1);
     destruct Hp as [(_&_&_&_&_&HB)|(_&_&_&_&HB)]; [by apply HB|by destruct (HB Hinf Ha) as (_&?&_)]].
  - destruct fuel as [|fuel]; [lia|]. cbn [lsearch_loop].
    assert (Qltb (xFinal q) eps = false) as Hx. { apply Qltb_nlt. change (inject_Z (Z.of_nat 0)) with 0%Q in Hj. lra. }
    rewrite Hx. exists true, c3, (st ++ [eps]), n2. split; [done|]. apply (LI_exit _ _ _ _ _ _ _ _ LI3); [done|lia|by left].
  - destruct late.
    + destruct fuel as [|fuel]; [lia|]. cbn [lsearch_loop]. destruct (i_late _ _ _ _ _ _ _ _ LI3 eq_refl) as (_&_&Hc). rewrite Hc, Efirst. cbn [orb].
      destruct (Qltb (xFinal q) eps) eqn:Ex.
      * exists true, c3, (st ++ [eps]), (S n2). split; [done|]. apply (LI_exit _ _ _ _ _ _ _ _ LI3); [done|lia|right]. split; [done|by exists n2].
      * exists true, c3, (st ++ [eps]), n2. split; [done|]. apply (LI_exit _ _ _ _ _ _ _ _ LI3); [done|lia|by left].
    + destruct (Qltb (xFinal q) eps) eqn:Ex.
      * apply (IH fuel eps' eps (iter + 1) c3 m3 (st ++ [eps]) n2 LI3 He'); [lia|lia| |lia].
        unfold eps'. destruct (Qltb (eps - xDec q) (xFinal q)) eqn:Ey.
        -- destruct Hq as [(?&?&?&?&?) _]. assert (0 <= inject_Z (Z.of_nat j) * xDec q)%Q; [|lra].
           apply Qmult_le_0_compat; [|lra]. change 0%Q with (inject_Z 0). rewrite <- Zle_Qle. lia.
        -- rewrite Nat2Z.inj_succ in Hj. unfold Z.succ in Hj. rewrite inject_Z_plus in Hj. change (inject_Z 1) with 1%Q in Hj. lra.
      * destruct fuel as [|fuel]; [lia|]. cbn [lsearch_loop]. rewrite Ex.
        exists true, c3, (st ++ [eps]), n2. split; [done|]. apply (LI_exit _ _ _ _ _ _ _ _ LI3); [done|lia|by left].
Qed.
End loop.
End run.
