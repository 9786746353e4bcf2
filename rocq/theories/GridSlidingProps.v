(** C56, C57, C58: the 2D grid search SBPL2DGridSearch with sliding buckets, as the (x, y, theta) lattice uses it. *)
From Coq Require Import ZifyBool.
From Verif Require Import Base DistModel DistProofs HeapModel HeapProofs SlidingModel SlidingSpec SlidingProofs GridModel GridSpec GridProofs GridProofs2 GridProofs3 GridProps GridSlidingModel GridSlidingProofs GridSlidingProofs2.
Ltac Zify.zify_post_hook ::= idtac.
Local Open Scope Z_scope.

(** The caller's map and threshold are unsigned chars, and no cell below the threshold costs 254 (so for any threshold up to 254 every map is allowed). *)
Definition admissible_b (grid : Z -> Z -> Z) (obs : Z) : Prop :=
  (forall x y, 0 <= grid x y <= 255) /\ 0 <= obs <= 255 /\ forall x y, grid x y < obs -> grid x y <> 254.
(** The objects a user can have: any object of C18 whose longest move is at least a millimetre, switched to sliding buckets with any initial bucket size, and then used for any number of
    searches that did not throw, on maps that may change between them. *)
Inductive ready_b : gsb -> Prop :=
| rb_new s init g : ready s -> 1 <= maxdistance s -> set_sliding s init = Ok g -> ready_b g
| rb_search g grid obs tc sx sy gx gy b g' : ready_b g -> admissible_b grid obs -> bsearch_run grid obs tc g sx sy gx gy = Ok (b, g') -> ready_b g'.

Lemma set_sliding_inv s init : ready s -> 1 <= maxdistance s -> exists g, set_sliding s init = Ok g /\ gbinv g /\ gbS g = s.
Proof.
  intros R Hm. destruct (ready_inv s R) as [[G1 G2 G3 G4 G5 G6] _]. unfold set_sliding. assert (255 * maxdistance s + INFINITECOST <= 2147483647) as Hs by (unfold maxdistance in *; lia).
  rewrite int32_ok by (unfold INFINITECOST in *; lia). cbn [glift obind]. eexists. split; [done|]. split; [|done]. destruct (new_srep (255 * maxdistance s) (Z.max 1000 (gsW s + gsH s)) init ltac:(lia) ltac:(lia)) as (R0&EN&ES).
  split; cbn [gbS gbL]; try done. exists w0. done.
Qed.
Lemma admissible_b_dear grid obs : admissible_b grid obs -> (forall x y, 0 <= grid x y) /\ obs <= 255 /\ forall x y, grid x y < obs -> grid x y <= 253.
Proof. intros (H1&H2&H3). split; [apply H1|]. split; [lia|]. intros x y Hlt. specialize (H3 x y Hlt). lia. Qed.
Lemma brun_inv g grid obs tc sx sy gx gy : gbinv g -> admissible_b grid obs ->
  let n := gsDown (gbS g) in let inb := inblocks (gsW (gbS g)) (gsH (gbS g)) in
  (bsearch_run grid obs tc g sx sy gx gy = Exn GFull /\ Z.max 1000 (gsW (gbS g) + gsH (gbS g)) < gsW (gbS g) * gsH (gbS g) /\ inb (block n sx sy) /\ inb (block n gx gy)) \/
  exists b g', bsearch_run grid obs tc g sx sy gx gy = Ok (b, g') /\ gbinv g' /\ (b = true <-> inb (block n sx sy) /\ inb (block n gx gy)) /\
    static (gbS g') = bstatic (gbS g) (block n gx gy) (if b then tc else gsTerm (gbS g)) /\ (b = true -> bresult grid obs tc g g' (block n sx sy) (block n gx gy)).
Proof.
  intros G A n inb. destruct (admissible_b_dear _ _ A) as (H1&H2&H3). exact (bsearch_ok grid obs tc g (block n sx sy) (block n gx gy) G H1 H2 H3).
Qed.
Lemma ready_b_inv g : ready_b g -> gbinv g /\ 0 <= (gsCell (gbS g)).1 /\ 0 <= (gsCell (gbS g)).2.
Proof.
  induction 1 as [s init g R Hm E|g grid obs tc sx sy gx gy b g' _ [IH C] A E].
  - destruct (set_sliding_inv s init R Hm) as (g'&E'&G&Es). rewrite E in E'. injection E' as <-. rewrite Es. split; [done|]. by destruct (ready_inv s R).
  - destruct (brun_inv g grid obs tc sx sy gx gy IH A) as [[E' _]|(b'&g''&E'&G&_&St&_)]; rewrite E in E'; [done|]. injection E' as <- <-. split; [done|]. by injection St as _ _ _ _ -> _ _ _ _ _.
Qed.

(** C56, the switch to sliding buckets succeeds. *)
Theorem C56_switch s init : ready s -> 1 <= maxdistance s -> exists g, set_sliding s init = Ok g /\ gbS g = s /\ ready_b g.
Proof. intros R Hm. destruct (set_sliding_inv s init R Hm) as (g&E&_&Es). exists g. split; [done|]. split; [done|]. by eapply rb_new. Qed.
(** C56, totality.  Every search ends without undefined behaviour; it returns true exactly when the blocks of start and goal exist and leaves the object usable; the one exception is
    "bucket is full", and only if there are more blocks than max(1000, width + height). *)
Theorem C56_total g grid obs tc sx sy gx gy : ready_b g -> admissible_b grid obs ->
  let n := gsDown (gbS g) in let inb := inblocks (gsW (gbS g)) (gsH (gbS g)) in
  (exists b g', bsearch_run grid obs tc g sx sy gx gy = Ok (b, g') /\ ready_b g' /\ (b = true <-> inb (block n sx sy) /\ inb (block n gx gy))) \/
  (bsearch_run grid obs tc g sx sy gx gy = Exn GFull /\ Z.max 1000 (gsW (gbS g) + gsH (gbS g)) < gsW (gbS g) * gsH (gbS g)).
Proof.
  intros R A n inb. destruct (ready_b_inv g R) as [G _]. destruct (brun_inv g grid obs tc sx sy gx gy G A) as [(E&Hb&_)|(b&g'&E&_&Hb&_)]; [by right|left].
  exists b, g'. split; [done|]. split; [|done]. by eapply rb_search.
Qed.
Theorem C56_small_map g grid obs tc sx sy gx gy : ready_b g -> admissible_b grid obs -> gsW (gbS g) * gsH (gbS g) <= Z.max 1000 (gsW (gbS g) + gsH (gbS g)) ->
  exists b g', bsearch_run grid obs tc g sx sy gx gy = Ok (b, g') /\ ready_b g' /\
    (b = true <-> inblocks (gsW (gbS g)) (gsH (gbS g)) (block (gsDown (gbS g)) sx sy) /\ inblocks (gsW (gbS g)) (gsH (gbS g)) (block (gsDown (gbS g)) gx gy)).
Proof. intros R A Hs. destruct (C56_total g grid obs tc sx sy gx gy R A) as [?|[_ ?]]; [done|lia]. Qed.

Lemma brun_true g grid obs tc sx sy gx gy g' : ready_b g -> admissible_b grid obs -> bsearch_run grid obs tc g sx sy gx gy = Ok (true, g') ->
  bresult grid obs tc g g' (block (gsDown (gbS g)) sx sy) (block (gsDown (gbS g)) gx gy) /\ inblocks (gsW (gbS g)) (gsH (gbS g)) (block (gsDown (gbS g)) gx gy) /\
  gsW (gbS g') = gsW (gbS g) /\ gsH (gbS g') = gsH (gbS g) /\ gsCell (gbS g') = gsCell (gbS g) /\ gsDown (gbS g') = gsDown (gbS g) /\ gsDist (gbS g') = gsDist (gbS g) /\ gsGoal (gbS g') = block (gsDown (gbS g)) gx gy /\ gsTerm (gbS g') = tc.
Proof.
  intros R A E. destruct (ready_b_inv g R) as [G _]. destruct (brun_inv g grid obs tc sx sy gx gy G A) as [[E' _]|(b&g''&E'&_&Hb&St&Hr)]; rewrite E in E'; [done|]. injection E' as <- <-. destruct (proj1 Hb eq_refl) as [_ Hg].
  split; [by apply Hr|]. split; [done|]. injection St as _ _ -> -> -> -> -> _ -> ->. done.
Qed.

(** C58, the four conditions other than OPTPATHFOUND: the value of every block is the least cost of a path to it, or the reported bound if that is smaller. *)
Theorem C58_dijkstra g grid obs tc sx sy gx gy g' x y : ready_b g -> admissible_b grid obs -> tc <> OPTPATHFOUND -> bsearch_run grid obs tc g sx sy gx gy = Ok (true, g') ->
  let s := gbS g in inblocks (gsW s) (gsH s) (block (gsDown s) x y) ->
  exists v, lowerbound (gbS g') x y = Ok v /\ 0 <= v /\ gsLargest (gbS g') <= INFINITECOST /\
    least_below grid (gsW s) (gsH s) (gsDown s) obs (gsDist s) (gsLargest (gbS g')) (block (gsDown s) sx sy) (block (gsDown s) x y) v.
Proof.
  intros R A Ht E s Hc. destruct (brun_true _ _ _ _ _ _ _ _ _ R A E) as ([HL0 Hs Hcm Hst Hgl]&_&E1&E2&E3&E4&E5&E6&E7). fold s in Hs, Hcm, E1, E2, E3, E4, E5, E6. set (s' := gbS g') in *.
  unfold lowerbound. rewrite E4. set (c := block (gsDown s) x y) in *. change (x ÷ gsDown s) with c.1. change (y ÷ gsDown s) with c.2. rewrite within_true by (by rewrite E1, E2). cbn [negb].
  rewrite (cellid_eq s s') by done. set (i := cellid s c.1 c.2). set (L := gsLargest s') in *. set (v := if (accof s' i =? gsIter s') && (gof s' i <=? L) then gof s' i else L).
  exists v. split; [rewrite E7; destruct tc; done|]. specialize (Hs c Hc). cbv zeta in Hs. fold i in Hs.
  assert (0 <= v /\ v <= L) as [Hv0 HvL]. { unfold v. destruct (accof s' i =? gsIter s') eqn:Ea; cbn [andb]; [|lia]. destruct (gof s' i <=? L) eqn:Eg; [|lia]. destruct (Hs ltac:(lia)). lia. }
  split; [done|]. split; [lia|]. split; [done|]. split.
  - intros Hlt. unfold v in Hlt |- *. destruct (accof s' i =? gsIter s') eqn:Ea; cbn [andb] in *; [|lia]. destruct (gof s' i <=? L) eqn:Eg; [|lia]. apply Hs; lia.
  - intros p Hp Hpl. specialize (Hcm c p Hc Hp). cbv zeta in Hcm. fold i in Hcm. unfold v. destruct Hcm as [(Ha&Hg)|[?|?]]; [|lia|lia].
    rewrite (proj2 (Z.eqb_eq _ _) Ha). replace (gof s' i <=? L) with true by lia. done.
Qed.

(** C57, exactness.  After a search with the condition ALLCELLS whose start and goal are in different blocks, with blocks of at least a millimetre, every block has the least cost of a
    path to it, INFINITECOST if there is none below it. *)
Theorem C57_all_cells g grid obs sx sy gx gy g' x y : ready_b g -> admissible_b grid obs -> bsearch_run grid obs ALLCELLS g sx sy gx gy = Ok (true, g') ->
  let s := gbS g in 1 <= (gsDist s).1.1 -> block (gsDown s) sx sy <> block (gsDown s) gx gy -> inblocks (gsW s) (gsH s) (block (gsDown s) x y) ->
  exists v, lowerbound (gbS g') x y = Ok v /\ least_below grid (gsW s) (gsH s) (gsDown s) obs (gsDist s) INFINITECOST (block (gsDown s) sx sy) (block (gsDown s) x y) v.
Proof.
  intros R A E s Hd Hne Hc. destruct (C58_dijkstra g grid obs ALLCELLS sx sy gx gy g' x y R A ltac:(done) E Hc) as (v&Ev&_&_&Hl). exists v. split; [done|].
  assert (gsLargest (gbS g') = INFINITECOST) as <-; [|done]. destruct (brun_true _ _ _ _ _ _ _ _ _ R A E) as ([_ Hs _ Hst Hgl]&Hg&_). destruct Hst as [|(key&Hk&Hst)]; [done|]. exfalso.
  unfold bgoes_on, fmulz in Hst. cbn [term_factor fst snd] in Hst. rewrite Z.mul_0_l in Hst. change (rne 0) with 0 in Hst. change (2 ^ 0) with 1 in Hst. destruct (Hs _ Hg Hgl) as [Hb Hp]. fold s in Hst, Hb, Hp.
  destruct (ready_b_inv g R) as (G&C1&C2). fold s in C1, C2. destruct A as (Hgr&_).
  assert (gof (gbS g') (cellid s (block (gsDown s) gx gy).1 (block (gsDown s) gx gy).2) = 0) as Hz.
  { set (gg := gof (gbS g') _) in *. destruct (decide (1 <= gg)); [|lia]. pose proof (rne_mono 1 gg ltac:(lia)) as Hm. change (rne 1) with 1 in Hm. lia. }
  rewrite Hz in Hp. specialize (Hp ltac:(unfold INFINITECOST; lia)). pose proof (gbi_dist _ G) as Gd. fold s in Gd. apply path_pos in Hp as [_ Hp]; [specialize (Hp Hne); lia|intros; apply Hgr|done| |];
    rewrite Gd in Hd |- *; cbn [fst snd] in *; pose proof (trunc_mono (gsCell s) 1000 1414 C1 C2 ltac:(lia) ltac:(lia)); pose proof (trunc_mono (gsCell s) 1414 2236 C1 C2 ltac:(lia) ltac:(lia)); lia.
Qed.
(** So the two kinds of priority queue give the same values. *)
Lemma least_unique grid w h n obs dist bound s t v v' : least_below grid w h n obs dist bound s t v -> least_below grid w h n obs dist bound s t v' -> v = v'.
Proof.
  intros (A1&A2&A3) (B1&B2&B3). destruct (Z.lt_trichotomy v v') as [?|[?|?]]; [|done|]; exfalso.
  - specialize (B3 v (A2 ltac:(lia)) ltac:(lia)). lia.
  - specialize (A3 v' (B2 ltac:(lia)) ltac:(lia)). lia.
Qed.
Theorem C57_same_as_heap s init g grid obs sx sy gx gy g' s' x y : ready s -> 1 <= (gsDist s).1.1 -> set_sliding s init = Ok g -> admissible_b grid obs -> block (gsDown s) sx sy <> block (gsDown s) gx gy ->
  gsearch_run grid obs ALLCELLS s sx sy gx gy = Ok (true, s') -> bsearch_run grid obs ALLCELLS g sx sy gx gy = Ok (true, g') -> inblocks (gsW s) (gsH s) (block (gsDown s) x y) ->
  lowerbound (gbS g') x y = lowerbound s' x y.
Proof.
  intros R Hd Es A Hne E1 E2 Hc. assert (1 <= maxdistance s) as Hm by (unfold maxdistance; lia). destruct (set_sliding_inv s init R Hm) as (g0&E0&_&Eg). rewrite Es in E0. injection E0 as <-.
  assert (ready_b g) as Rb by (by eapply rb_new). assert (admissible s grid obs ALLCELLS) as Ah by (destruct A as (?&?&_); by split).
  destruct (C18_all_cells s grid obs sx sy gx gy s' x y R Ah E1 Hd Hne Hc) as (v&->&Hv). pose proof (C57_all_cells g grid obs sx sy gx gy g' x y Rb A E2) as Hb. cbv zeta in Hb. rewrite Eg in Hb.
  destruct (Hb Hd Hne Hc) as (v'&->&Hv'). f_equal. by eapply least_unique.
Qed.

(** C58, OPTPATHFOUND: the value of every block is a lower bound on the cost of every path to it (with cost plus straight-line estimate below INFINITECOST), whatever the cell size, and is exact
    when value plus estimate is below the reported bound. *)
Definition float_estimate (cell : Z * Z) (c goal : Z * Z) : Z := trunc (fmulz (fmulz cell 1000) (Z.max (Z.abs (c.1 - goal.1)) (Z.abs (c.2 - goal.2)))).
Theorem C58_astar g grid obs sx sy gx gy g' x y : ready_b g -> admissible_b grid obs -> bsearch_run grid obs OPTPATHFOUND g sx sy gx gy = Ok (true, g') ->
  let s := gbS g in inblocks (gsW s) (gsH s) (block (gsDown s) x y) ->
  let h := float_estimate (gsCell s) (block (gsDown s) x y) (block (gsDown s) gx gy) in h <= 1147483647 ->
  let bpath := path grid (gsW s) (gsH s) (gsDown s) obs (gsDist s) (block (gsDown s) sx sy) (block (gsDown s) x y) in
  exists v, lowerbound (gbS g') x y = Ok v /\ (forall p, bpath p -> p + h < INFINITECOST -> v <= p) /\ (v + h < gsLargest (gbS g') -> bpath v).
Proof.
  intros R A E s Hc h Hh bpath. destruct (brun_true _ _ _ _ _ _ _ _ _ R A E) as ([HL0 Hs Hcm _ _]&Hgoal&E1&E2&E3&E4&E5&E6&E7). fold s in Hs, Hcm, E1, E2, E3, E4, E5, E6. set (s' := gbS g') in *. destruct (ready_b_inv g R) as (_&C1&C2). fold s in C1, C2.
  unfold lowerbound. rewrite E4. set (c := block (gsDown s) x y) in *. change (x ÷ gsDown s) with c.1. change (y ÷ gsDown s) with c.2. rewrite within_true by (by rewrite E1, E2). cbn [negb].
  rewrite E7. rewrite (cellid_eq s s') by done. set (i := cellid s c.1 c.2). set (L := gsLargest s') in *. set (gl := block (gsDown s) gx gy) in *.
  assert (0 <= h) as Hh0. { unfold h, float_estimate, trunc. apply Z.div_pos; [|unfold fmulz; cbn; apply Z.pow_pos_nonneg; lia]. unfold fmulz. cbn [fst snd]. apply rne_nonneg. apply Z.mul_nonneg_nonneg; apply rne_nonneg; [|lia]. apply Z.mul_nonneg_nonneg; [done|]. apply rne_nonneg. lia. }
  assert (heur2d s' c.1 c.2 = Ok h) as ->. { unfold heur2d, ftoint. rewrite E3, E6. change ((fmulz (fmulz (gsCell s) 1000) (Z.max (Z.abs (c.1 - gl.1)) (Z.abs (c.2 - gl.2)))).1 / 2 ^ (fmulz (fmulz (gsCell s) 1000) (Z.max (Z.abs (c.1 - gl.1)) (Z.abs (c.2 - gl.2)))).2) with h. apply int32_ok. lia. }
  cbn [obind]. specialize (Hs c Hc). cbv zeta in Hs. fold i in Hs. assert (forall p, bpath p -> (accof s' i = gsIter s' /\ gof s' i <= p) \/ L <= p \/ INFINITECOST <= p) as Hcm' by (intros p Hp; exact (Hcm c p Hc Hp)). clear Hcm.
  destruct (accof s' i =? gsIter s') eqn:Ea.
  - destruct (Hs ltac:(lia)) as [Hb Hp]. rewrite int32_ok by (unfold INFINITECOST in *; lia). cbn [obind]. destruct (gof s' i + h <=? L) eqn:Ef.
    + eexists. split; [done|]. split; [|intros; apply Hp; lia]. intros p Hpp Hpi. destruct (Hcm' p Hpp) as [(_&?)|[?|?]]; lia.
    + eexists. split; [done|]. split.
      * intros p Hpp Hpi. destruct (L <? INFINITECOST) eqn:El; destruct (Hcm' p Hpp) as [(_&?)|[?|?]]; lia.
      * destruct (L <? INFINITECOST) eqn:El; lia.
  - cbn [obind]. eexists. split; [done|]. split.
    + intros p Hpp Hpi. destruct (L <? INFINITECOST) eqn:El; destruct (Hcm' p Hpp) as [(?&?)|[?|?]]; lia.
    + destruct (L <? INFINITECOST) eqn:El; lia.
Qed.

(** ** Concrete cases and counterexamples *)
Definition slid (s : gsearch) (init : Z) : gsb := match set_sliding s init with Ok g => g | _ => mkGSB s (new_sbk 0 0 0) end.
Lemma slid_ready s init : ready s -> 1 <= maxdistance s -> ready_b (slid s init).
Proof. intros R Hm. destruct (set_sliding_inv s init R Hm) as (g&E&_&_). unfold slid. rewrite E. by eapply rb_new. Qed.
Definition after_b (grid : Z -> Z -> Z) (obs : Z) (tc : term) (g : gsb) (sx sy gx gy : Z) (qs : list (Z * Z)) : gbres (bool * Z * list (gres Z)) :=
  do r <- bsearch_run grid obs tc g sx sy gx gy; Ok (r.1, gsLargest (gbS r.2), map (fun q => lowerbound (gbS r.2) q.1 q.2) qs).
Lemma after_b_run grid obs tc g sx sy gx gy qs b L vs : after_b grid obs tc g sx sy gx gy qs = Ok (b, L, vs) ->
  exists g', bsearch_run grid obs tc g sx sy gx gy = Ok (b, g') /\ gsLargest (gbS g') = L /\ map (fun q => lowerbound (gbS g') q.1 q.2) qs = vs.
Proof. unfold after_b. destruct (bsearch_run grid obs tc g sx sy gx gy) as [[b' g']| | |] eqn:E; try done. cbn [obind fst snd]. intros [= -> <- <-]. eauto. Qed.
(** Cells of a millimetre (0.001f); the moves have length 1, 1 and 2. *)
Definition mm : Z * Z := (8589935, 33).
Lemma mm_ready w h : 1 <= w -> 1 <= h -> w * h < HEAPSIZE -> ready (sized w h mm 1) /\ 1 <= maxdistance (sized w h mm 1) /\ gsDist (sized w h mm 1) = (1, 1, 2) /\ gsW (sized w h mm 1) = w /\ gsH (sized w h mm 1) = h /\ gsDown (sized w h mm 1) = 1.
Proof.
  intros Hw Hh Hs. assert (gsDist (sized w h mm 1) = (1, 1, 2) /\ (match new_gs w h mm 1 with Ok _ => true | _ => false end) = true /\ gsW (sized w h mm 1) = w /\ gsH (sized w h mm 1) = h /\ gsDown (sized w h mm 1) = 1) as (Ed&Eo&Ew&Eh&En).
  { unfold sized, new_gs. rewrite !Z.quot_1_r. change (1 =? 0) with false. cbv match. replace ((w <? 0) || (h <? 0)) with false by lia. split; [reflexivity|]. split; [reflexivity|]. split; [reflexivity|]. split; reflexivity. }
  split; [|split; [unfold maxdistance; rewrite Ed; cbn [fst snd]; lia|exact (conj Ed (conj Ew (conj Eh En)))]]. apply (ready_new w h mm 1).
  - lia.
  - lia.
  - by rewrite !Z.quot_1_r.
  - unfold mm. cbn [fst]. lia.
  - unfold mm. cbn [snd]. lia.
  - by apply sized_ok.
  - rewrite Ed. unfold INFINITECOST. cbn [fst snd]. lia.
Qed.
Definition exb : gsb := slid (sized 5 4 mm 1) 32.
Example exb_ready : ready_b exb.
Proof. destruct (mm_ready 5 4 ltac:(lia) ltac:(lia) ltac:(unfold HEAPSIZE; lia)) as (R&Hm&_). by apply slid_ready. Qed.
Example exb_admissible : admissible_b exgrid 254.
Proof. split; [apply exgrid_range|]. split; [lia|]. lia. Qed.
(** A wall with one gap (the map of C18): the values at the start, the goal, a cell of the wall and two others; a second search on the same object; the heap gives the same values. *)
Example exb_values :
  after_b exgrid 254 ALLCELLS exb 0 0 4 0 [(0, 0); (4, 0); (2, 0); (0, 1); (3, 3)] = Ok (true, INFINITECOST, [Ok 0; Ok 6; Ok INFINITECOST; Ok 4; Ok 4]) /\
  after exgrid 254 ALLCELLS (sized 5 4 mm 1) 0 0 4 0 [(0, 0); (4, 0); (2, 0); (0, 1); (3, 3)] = Some (true, INFINITECOST, [Ok 0; Ok 6; Ok INFINITECOST; Ok 4; Ok 4]) /\
  (do r <- bsearch_run exgrid 254 ALLCELLS exb 0 0 4 0; after_b exgrid 254 TWOTIMES r.2 4 3 4 0 [(4, 0); (0, 1)]) = Ok (true, 7, [Ok 3; Ok 7]) /\
  after_b exgrid 254 OPTPATHFOUND exb 0 0 4 0 [(4, 0); (3, 3)] = Ok (true, 5, [Ok 5; Ok 2]) /\
  after_b exgrid 254 ALLCELLS exb 0 0 5 0 [] = Ok (false, 0, []).
Proof. vm_compute. split_and!; reflexivity. Qed.

(** A threshold of 255 and a cell that costs 254: the cost 255 times the length is outside the window of the list, and the search throws "invalid priority". *)
Definition deargrid (x y : Z) : Z := if x =? 1 then 254 else 0.
Theorem C56_dear_cell_refuted : exists g, ready_b g /\ (forall x y, 0 <= deargrid x y <= 255) /\ bsearch_run deargrid 255 ALLCELLS g 0 0 2 1 = Exn GInvalid.
Proof.
  destruct (mm_ready 3 2 ltac:(lia) ltac:(lia) ltac:(unfold HEAPSIZE; lia)) as (R&Hm&_). exists (slid (sized 3 2 mm 1) 32). split; [by apply slid_ready|]. split; [intros x y; unfold deargrid; destruct (x =? 1); lia|]. clear. vm_compute. reflexivity.
Qed.
(** Cells below half a millimetre: all lengths are 0, the list has no bucket, and the search divides by zero. *)
Theorem C56_tiny_cell_refuted : exists s g, ready s /\ set_sliding s 32 = Ok g /\ bsearch_run (fun _ _ => 0) 254 ALLCELLS g 0 0 2 1 = UB.
Proof.
  exists (sized 3 2 (1, 12) 1), (slid (sized 3 2 (1, 12) 1) 32). split; [|split; [reflexivity|vm_compute; reflexivity]].
  apply sized_ready; try (by vm_compute); lia || (cbn; lia) || idtac.
Qed.
(** Cells of half a millimetre (lengths 0, 0 and 1) on a map of 1003 cells of which one (the goal) is an obstacle.  The search throws "bucket is full". *)
Definition fullgrid (x y : Z) : Z := if (x =? 16) && (y =? 58) then 255 else 0.
Theorem C56_full_bucket_refuted : exists g, ready_b g /\ gsW (gbS g) * gsH (gbS g) = 1003 /\ admissible_b fullgrid 254 /\ bsearch_run fullgrid 254 ALLCELLS g 0 0 16 58 = Exn GFull.
Proof.
  assert (ready (sized 17 59 (1, 11) 1)) as R by (apply sized_ready; try (by vm_compute); lia || (cbn; lia) || idtac).
  assert (forall x y, 0 <= fullgrid x y <= 255) as Hr by (intros x y; unfold fullgrid; destruct (_ && _); lia).
  exists (slid (sized 17 59 (1, 11) 1) 32). split; [apply slid_ready; [done|by vm_compute]|]. split; [vm_compute; reflexivity|]. split; [split; [done|split; lia]|].
  clear. assert ((match bsearch_run fullgrid 254 ALLCELLS (slid (sized 17 59 (1, 11) 1) 32) 0 0 16 58 with Exn GFull => true | _ => false end) = true) as E by (vm_compute; reflexivity).
  destruct (bsearch_run _ _ _ _ _ _ _ _) as [|[]| |]; done.
Qed.
(** Unlike with the heap (C19), the value of the goal need not be exact with OPTPATHFOUND: the reported bound can be the cost of a cell of which an outdated copy is still in the list. *)
Definition stalegrid (x y : Z) : Z := if y =? 0 then 3 else if x =? 0 then 2 else if x =? 1 then 0 else 1.
Theorem C58_goal_exact_refuted : exists g g', ready_b g /\ admissible_b stalegrid 254 /\ bsearch_run stalegrid 254 OPTPATHFOUND g 0 0 2 0 = Ok (true, g') /\
  lowerbound (gbS g') 2 0 = Ok 6 /\ forall p, path stalegrid (gsW (gbS g)) (gsH (gbS g)) (gsDown (gbS g)) 254 (gsDist (gbS g)) (0, 0) (2, 0) p -> 8 <= p.
Proof.
  destruct (mm_ready 3 2 ltac:(lia) ltac:(lia) ltac:(unfold HEAPSIZE; lia)) as (R&Hm&Ed&_). set (g := slid (sized 3 2 mm 1) 32).
  assert (after_b stalegrid 254 OPTPATHFOUND g 0 0 2 0 [(2, 0)] = Ok (true, 6, [Ok 6])) as E by (vm_compute; reflexivity). apply after_b_run in E as (g'&E&_&Ev). cbn [map fst snd] in Ev. injection Ev as Ev.
  assert (after_b stalegrid 254 ALLCELLS g 0 0 2 0 [(2, 0)] = Ok (true, INFINITECOST, [Ok 8])) as E2 by (vm_compute; reflexivity). apply after_b_run in E2 as (g2&E2&_&Ev2). cbn [map fst snd] in Ev2. injection Ev2 as Ev2.
  assert (ready_b g) as Rb by (by apply slid_ready). assert (admissible_b stalegrid 254) as A. { split; [intros x y; unfold stalegrid; repeat destruct (_ =? _); lia|]. split; lia. }
  exists g, g'. split; [done|]. split; [done|]. split; [done|]. split; [done|]. intros p Hp. assert (gsDist (gbS g) = (1, 1, 2) /\ gsW (gbS g) = 3 /\ gsH (gbS g) = 2 /\ gsDown (gbS g) = 1) as (F1&F2&F3&F4) by (clear; vm_compute; done).
  pose proof (C57_all_cells g stalegrid 254 0 0 2 0 g2 2 0 Rb A E2) as Hx. cbv zeta in Hx. rewrite F1, F2, F3, F4 in Hx. unfold block in Hx. rewrite !Z.quot_1_r in Hx. destruct Hx as (v&Ev'&_&_&Hl); [cbn [fst]; lia|congruence|split; cbn [fst snd]; lia|].
  rewrite Ev2 in Ev'. injection Ev' as <-. rewrite F1, F2, F3, F4 in Hp. destruct (decide (p < INFINITECOST)); [|unfold INFINITECOST in *; lia]. by apply Hl.
Qed.

Print Assumptions C56_switch.
Print Assumptions C56_total.
Print Assumptions C56_small_map.
Print Assumptions C56_dear_cell_refuted.
Print Assumptions C56_tiny_cell_refuted.
Print Assumptions C56_full_bucket_refuted.
Print Assumptions C57_all_cells.
Print Assumptions C57_same_as_heap.
Print Assumptions C58_dijkstra.
Print Assumptions C58_astar.
Print Assumptions C58_goal_exact_refuted.
