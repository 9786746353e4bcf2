(** C18, C19: the 2D grid search SBPL2DGridSearch (heap version). *)
From Coq Require Import ZifyBool.
From Verif Require Import Base DistModel DistProofs HeapModel HeapProofs GridModel GridSpec GridProofs GridProofs2 GridProofs3.
Ltac Zify.zify_post_hook ::= idtac.
Local Open Scope Z_scope.

(** The block of a map cell (integer division of C++). *)
Definition block (n : Z) (x y : Z) : Z * Z := (Z.quot x n, Z.quot y n).
(** What the caller of search must respect: the map and the threshold are unsigned chars; and, only when the condition is OPTPATHFOUND, the
    size of a block is a whole number K of millimetres and K times the larger side of the map in blocks is below 2^24. *)
Definition admissible (s : gsearch) (grid : Z -> Z -> Z) (obs : Z) (tc : term) : Prop :=
  (forall x y, 0 <= grid x y <= 255) /\ 0 <= obs <= 255 /\ (tc = OPTPATHFOUND -> astar_ok s).
(** The objects a user can have: made by the constructor with a downsampling factor between 1 and the sides of the map, and then used for any number of
    searches, successful or not, on maps that may change between them. *)
Inductive ready : gsearch -> Prop :=
| ready_new w h cell n s : 1 <= n <= w -> n <= h -> Z.quot w n * Z.quot h n < HEAPSIZE -> 0 <= cell.1 -> 0 <= cell.2 -> new_gs w h cell n = Ok s ->
    255 * (gsDist s).2 + INFINITECOST <= 2147483647 -> ready s
| ready_search s grid obs tc sx sy gx gy b s' : ready s -> admissible s grid obs tc -> gsearch_run grid obs tc s sx sy gx gy = Ok (b, s') -> ready s'.

Lemma trunc_mono cell n m : 0 <= cell.1 -> 0 <= cell.2 -> 0 <= n <= m -> m < 16777216 -> 0 <= trunc (fmulz cell n) <= trunc (fmulz cell m).
Proof.
  intros H1 H2 H3 H4. unfold trunc, fmulz. cbn [fst snd]. rewrite (rne_lt24 n), (rne_lt24 m) by lia. assert (0 < 2 ^ cell.2) by (apply Z.pow_pos_nonneg; lia). split.
  - apply Z.div_pos; [|done]. apply rne_nonneg. nia.
  - apply Z.div_le_mono; [done|]. apply rne_mono. nia.
Qed.
Lemma new_gs_inv w h cell n s : 1 <= n <= w -> n <= h -> Z.quot w n * Z.quot h n < HEAPSIZE -> 0 <= cell.1 -> 0 <= cell.2 -> new_gs w h cell n = Ok s ->
  gwf s /\ gsMapW s = w /\ gsMapH s = h /\ gsW s = Z.quot w n /\ gsH s = Z.quot h n /\ gsDown s = n /\ gsCell s = fmulz cell n /\
  gsDist s = (trunc (fmulz (gsCell s) 1000), trunc (fmulz (gsCell s) 1414), trunc (fmulz (gsCell s) 2236)) /\ gsIter s = 0 /\ gsAcc s = ∅ /\ gsOpen s = new_heap (Z.quot w n * Z.quot h n).
Proof.
  intros H1 H2 H3 H4 H5 E. unfold new_gs in E. replace (n =? 0) with false in E by lia. unfold ftoint, int32 in E.
  do 3 (destruct (_ <=? 2147483647) in E; [cbn [obind] in E|done]). destruct (_ || _) in E; [done|]. injection E as <-. cbn. unfold gwf. cbn. rewrite Z.max_r by lia.
  rewrite !Z.quot_div_nonneg in * by lia. split_and!; try done; try lia.
Qed.
Lemma ready_inv s : ready s -> ginv s /\ 0 <= (gsCell s).1 /\ 0 <= (gsCell s).2.
Proof.
  induction 1 as [w h cell n s H1 H2 H3 H4 H5 E H6|s grid obs tc sx sy gx gy b s' _ [IH [C1 C2]] (Hg&Ho&Ha) E].
  - destruct (new_gs_inv w h cell n s H1 H2 H3 H4 H5 E) as (F1&F2&F3&F4&F5&F6&F7&F8&F9&F10&F11).
    assert (0 <= (gsCell s).1 /\ 0 <= (gsCell s).2) as [C1 C2]. { rewrite F7. unfold fmulz. cbn. split; [|done]. apply rne_nonneg. apply Z.mul_nonneg_nonneg; [done|]. apply rne_nonneg. lia. }
    split; [|done]. pose proof (trunc_mono (gsCell s) 1000 1414 C1 C2 ltac:(lia) ltac:(lia)). pose proof (trunc_mono (gsCell s) 1414 2236 C1 C2 ltac:(lia) ltac:(lia)).
    split; [done| | |done| |].
    + rewrite F9. split; [done|]. intros i. unfold accof. by rewrite F10, lookup_empty.
    + exists ∅. rewrite F11. apply (new_heap_rep intops). destruct F1 as (_&G1&G2&_). rewrite F4 in G1. rewrite F5 in G2. nia.
    + rewrite F8. cbn. lia.
    + rewrite F8 in *. cbn in *. lia.
  - unfold gsearch_run in E. destruct (search_ok grid obs tc s (block (gsDown s) sx sy) (block (gsDown s) gx gy) IH) as (b'&s''&E'&G'&St&_); [intros; apply Hg|lia|done|].
    cbn [block fst snd] in E'. rewrite E in E'. injection E' as <- <-. split; [done|]. apply static_inv in St as (_&_&_&_&->&_). done.
Qed.
Lemma run_inv s grid obs tc sx sy gx gy : ready s -> admissible s grid obs tc ->
  exists b s', gsearch_run grid obs tc s sx sy gx gy = Ok (b, s') /\ static s' = static (prepared tc s (Z.quot gx (gsDown s)) (Z.quot gy (gsDown s)) (gsOpen s)) /\
    (b = true <-> inblocks (gsW s) (gsH s) (block (gsDown s) sx sy) /\ inblocks (gsW s) (gsH s) (block (gsDown s) gx gy)) /\
    (b = true -> result grid obs tc s s' (block (gsDown s) sx sy) (block (gsDown s) gx gy)).
Proof.
  intros R (Hg&Ho&Ha). destruct (ready_inv s R) as [G _]. destruct (search_ok grid obs tc s (block (gsDown s) sx sy) (block (gsDown s) gx gy) G) as (b'&s''&E'&G'&St&Hb&Hr); [intros; apply Hg|lia|done|].
  exists b', s''. done.
Qed.

(** C18, totality.  The constructor succeeds when the lengths fit in an int, and the lengths of the straight, diagonal and long moves are 1000, 1414 and 2236 times
    the size of a block in metres, up to two float roundings and the truncation to whole millimetres. *)
Definition rounded_length (cell : Z * Z) (n k d : Z) : Prop :=
  16777216 ^ 2 * (d * 2 ^ cell.2) <= 16777217 ^ 2 * (cell.1 * n * k) /\ 16777215 ^ 2 * (cell.1 * n * k) < 16777216 ^ 2 * ((d + 1) * 2 ^ cell.2).
Theorem C18_constructor w h cell n : 1 <= n <= w -> n <= h -> n < 16777216 -> 0 <= cell.1 -> 0 <= cell.2 -> cell.1 * n * 2236 * 16777217 ^ 2 < 2147483648 * 2 ^ cell.2 * 16777216 ^ 2 ->
  exists s, new_gs w h cell n = Ok s /\ gsDown s = n /\ gsW s = w / n /\ gsH s = h / n /\
    rounded_length cell n 1000 (gsDist s).1.1 /\ rounded_length cell n 1414 (gsDist s).1.2 /\ rounded_length cell n 2236 (gsDist s).2.
Proof.
  intros H1 H2 Hn H4 H5 H6. assert (0 < 2 ^ cell.2) as Hp by (apply Z.pow_pos_nonneg; lia). set (P := 2 ^ cell.2) in *.
  assert (forall k, 0 <= k < 16777216 -> rounded_length cell n k (trunc (fmulz (fmulz cell n) k))) as Hr.
  { intros k Hk. unfold rounded_length, trunc, fmulz. cbn [fst snd]. fold P. rewrite (rne_lt24 n), (rne_lt24 k) by lia.
    set (a := rne (cell.1 * n)). pose proof (rne_err (cell.1 * n) ltac:(nia)) as Ha. fold a in Ha. assert (0 <= a) as Ha0 by (apply rne_nonneg; nia).
    set (b := rne (a * k)). pose proof (rne_err (a * k) ltac:(nia)) as Hb. fold b in Hb. pose proof (Z.div_mod b P ltac:(lia)) as Hd. pose proof (Z.mod_pos_bound b P Hp).
    split; nia. }
  assert (forall k d, 0 <= k <= 2236 -> rounded_length cell n k d -> d <= 2147483647) as Hb.
  { intros k d Hk [Hd _]. fold P in Hd. destruct (decide (d <= 2147483647)); [done|]. exfalso. assert (2147483648 * P <= d * P) by nia. assert (cell.1 * n * k <= cell.1 * n * 2236) by nia. nia. }
  unfold new_gs. replace (n =? 0) with false by lia. unfold ftoint. change (?f.1 / 2 ^ ?f.2) with (trunc f). unfold int32.
  rewrite !(proj2 (Z.leb_le _ _)) by (eapply Hb, Hr; lia). cbn [obind]. rewrite !Z.quot_div_nonneg by lia.
  assert (0 <= w / n) by (apply Z.div_pos; lia). assert (0 <= h / n) by (apply Z.div_pos; lia).
  replace ((w / n <? 0) || (h / n <? 0)) with false by lia. eexists. split; [done|]. cbn [gsDown gsW gsH gsDist fst snd]. split; [lia|]. split; [done|]. split; [done|]. split_and!; apply Hr; lia.
Qed.

(** Every search ends without undefined behaviour or exception, leaves the object usable, and returns true exactly when the blocks of start and goal exist. *)
Theorem C18_total s grid obs tc sx sy gx gy : ready s -> admissible s grid obs tc ->
  exists b s', gsearch_run grid obs tc s sx sy gx gy = Ok (b, s') /\ ready s' /\
    (b = true <-> inblocks (gsW s) (gsH s) (block (gsDown s) sx sy) /\ inblocks (gsW s) (gsH s) (block (gsDown s) gx gy)).
Proof. intros R A. destruct (run_inv s grid obs tc sx sy gx gy R A) as (b&s'&E&_&Hb&_). exists b, s'. split; [done|]. split; [|done]. by eapply ready_search. Qed.

Lemma run_true s grid obs tc sx sy gx gy s' : ready s -> admissible s grid obs tc -> gsearch_run grid obs tc s sx sy gx gy = Ok (true, s') ->
  result grid obs tc s s' (block (gsDown s) sx sy) (block (gsDown s) gx gy) /\ inblocks (gsW s) (gsH s) (block (gsDown s) gx gy) /\
  gsW s' = gsW s /\ gsH s' = gsH s /\ gsCell s' = gsCell s /\ gsDown s' = gsDown s /\ gsDist s' = gsDist s /\ gsGoal s' = block (gsDown s) gx gy /\ gsTerm s' = tc.
Proof.
  intros R A E. destruct (run_inv s grid obs tc sx sy gx gy R A) as (b&s''&E'&St&Hb&Hr). rewrite E in E'. injection E' as <- <-. destruct (proj1 Hb eq_refl) as [_ Hg].
  split; [by apply Hr|]. split; [done|]. apply static_inv in St as (_&_&?&?&?&?&?&_&?&?). done.
Qed.
Lemma within_true s c : inblocks (gsW s) (gsH s) c -> withinMap s c.1 c.2 = true.
Proof. intros [? ?]. unfold withinMap. lia. Qed.
Lemma cellid_eq s s' x y : gsW s' = gsW s -> cellid s' x y = cellid s x y.
Proof. intros E. unfold cellid. by rewrite E. Qed.
Lemma hfun_other tc s c : tc <> OPTPATHFOUND -> hfun tc s c = 0.
Proof. unfold hfun. by destruct tc. Qed.

(** C19, the four conditions other than OPTPATHFOUND: the value of every block is the least cost of a path to it, or the reported largest computed value if that is smaller; in particular
    it is never above the least cost (below that bound). *)
Theorem C19_dijkstra s grid obs tc sx sy gx gy s' x y : ready s -> admissible s grid obs tc -> tc <> OPTPATHFOUND -> gsearch_run grid obs tc s sx sy gx gy = Ok (true, s') ->
  inblocks (gsW s) (gsH s) (block (gsDown s) x y) ->
  exists v, lowerbound s' x y = Ok v /\ 0 <= v /\ gsLargest s' <= INFINITECOST /\
    least_below grid (gsW s) (gsH s) (gsDown s) obs (gsDist s) (gsLargest s') (block (gsDown s) sx sy) (block (gsDown s) x y) v.
Proof.
  intros R A Ht E Hc. destruct (run_true _ _ _ _ _ _ _ _ _ R A E) as ([_ [HL0 HL] Hs Hcm Hst Hgl]&_&E1&E2&E3&E4&E5&E6&E7). specialize (HL Ht).
  unfold lowerbound. rewrite E4. set (c := block (gsDown s) x y) in *. change (x ÷ gsDown s) with c.1. change (y ÷ gsDown s) with c.2. rewrite within_true by (by rewrite E1, E2). cbn [negb].
  rewrite (cellid_eq s s') by done. set (i := cellid s c.1 c.2). set (L := gsLargest s') in *. set (v := if (accof s' i =? gsIter s') && (gof s' i <=? L) then gof s' i else L).
  exists v. split; [rewrite E7; destruct tc; done|]. specialize (Hs c Hc). fold i in Hs. 
  assert (0 <= v /\ v <= L) as [Hv0 HvL]. { unfold v. destruct (accof s' i =? gsIter s') eqn:Ea; cbn [andb]; [|lia]. destruct (gof s' i <=? L) eqn:Eg; [|lia]. destruct (Hs ltac:(lia)). lia. }
  split; [done|]. split; [done|]. split; [done|]. split.
  - intros Hlt. unfold v in Hlt |- *. destruct (accof s' i =? gsIter s') eqn:Ea; cbn [andb] in *; [|lia]. destruct (gof s' i <=? L) eqn:Eg; [|lia]. apply Hs; lia.
  - intros p Hp Hpl. specialize (Hcm c p Hc Hp). fold i L in Hcm. rewrite hfun_other in Hcm by done. unfold v. destruct Hcm as [(Ha&Hg&Hgl')|[?|?]]; [|lia|lia].
    rewrite (proj2 (Z.eqb_eq _ _) Ha). replace (gof s' i <=? L) with true by lia. done.
Qed.

(** C18, exactness.  After a search with the condition ALLCELLS whose start and goal are in different blocks, with blocks of at least a millimetre, every block has the least cost of a
    path to it, INFINITECOST if there is none below it. *)
Lemma path_pos grid w h n obs dist s t c : (forall x y, 0 <= grid x y) -> 1 <= dist.1.1 -> 1 <= dist.1.2 -> 1 <= dist.2 -> path grid w h n obs dist s t c -> 0 <= c /\ (s <> t -> 0 < c).
Proof.
  intros Hg H1 H2 H3. induction 1 as [|u v c e Hp [IH _] (_&_&len&cells&M&Hmv&_&(t&_&(dx&dy&_&_&<-)&_)&_&->)]; [done|]. pose proof (Hg (t.1 * n + dx) (t.2 * n + dy)).
  assert (1 <= len dist) by (inversion Hmv; subst; done). assert (1 <= (grid (t.1 * n + dx) (t.2 * n + dy) + 1) * len dist) by nia. lia.
Qed.
Theorem C18_all_cells s grid obs sx sy gx gy s' x y : ready s -> admissible s grid obs ALLCELLS -> gsearch_run grid obs ALLCELLS s sx sy gx gy = Ok (true, s') ->
  1 <= (gsDist s).1.1 -> block (gsDown s) sx sy <> block (gsDown s) gx gy -> inblocks (gsW s) (gsH s) (block (gsDown s) x y) ->
  exists v, lowerbound s' x y = Ok v /\ least_below grid (gsW s) (gsH s) (gsDown s) obs (gsDist s) INFINITECOST (block (gsDown s) sx sy) (block (gsDown s) x y) v.
Proof.
  intros R A E Hd Hne Hc. destruct (C19_dijkstra s grid obs ALLCELLS sx sy gx gy s' x y R A ltac:(done) E Hc) as (v&Ev&_&_&Hl). exists v. split; [done|].
  assert (gsLargest s' = INFINITECOST) as <-; [|done]. destruct (run_true _ _ _ _ _ _ _ _ _ R A E) as ([_ _ Hs _ Hst Hgl]&Hg&_). destruct Hst as [|Hst]; [done|]. exfalso.
  unfold goes_on, fmulz in Hst. cbn [term_factor fst snd] in Hst. rewrite Z.mul_0_l in Hst. change (rne 0) with 0 in Hst. change (2 ^ 0) with 1 in Hst. destruct (Hs _ Hg Hgl) as [Hb Hp].
  destruct (ready_inv s R) as (G&C1&C2). destruct A as (Hgr&_).
  assert (gof s' (cellid s (block (gsDown s) gx gy).1 (block (gsDown s) gx gy).2) = 0) as Hz.
  { set (g := gof s' _) in *. destruct (decide (1 <= g)); [|lia]. pose proof (rne_mono 1 (Z.min INFINITECOST g) ltac:(unfold INFINITECOST in *; lia)) as Hm. change (rne 1) with 1 in Hm. lia. }
  rewrite Hz in Hp. specialize (Hp ltac:(unfold INFINITECOST; lia)). apply path_pos in Hp as [_ Hp]; [specialize (Hp Hne); lia|intros; apply Hgr|done| |];
    rewrite (gi_dist _ G) in Hd |- *; cbn [fst snd] in *; pose proof (trunc_mono (gsCell s) 1000 1414 C1 C2 ltac:(lia) ltac:(lia)); pose proof (trunc_mono (gsCell s) 1414 2236 C1 C2 ltac:(lia) ltac:(lia)); lia.
Qed.

(** C19, OPTPATHFOUND: with blocks of K millimetres the value of every block is a lower bound on the cost of every path to it (with cost plus the straight-line estimate
    below INFINITECOST), and is exact when value plus estimate is below the reported bound. *)
Definition estimate (K : Z) (c goal : Z * Z) : Z := K * Z.max (Z.abs (c.1 - goal.1)) (Z.abs (c.2 - goal.2)).
Theorem C19_astar s grid obs K sx sy gx gy s' x y : ready s -> admissible s grid obs OPTPATHFOUND -> whole_mm (gsCell s) K -> K * Z.max (gsW s) (gsH s) < 16777216 ->
  gsearch_run grid obs OPTPATHFOUND s sx sy gx gy = Ok (true, s') -> inblocks (gsW s) (gsH s) (block (gsDown s) x y) ->
  exists v, let h := estimate K (block (gsDown s) x y) (block (gsDown s) gx gy) in let bpath := path grid (gsW s) (gsH s) (gsDown s) obs (gsDist s) (block (gsDown s) sx sy) (block (gsDown s) x y) in
    lowerbound s' x y = Ok v /\ (forall p, bpath p -> p + h < INFINITECOST -> v <= p) /\ (v + h < gsLargest s' -> v < INFINITECOST -> bpath v).
Proof.
  intros R A HK HKlt E Hc. destruct (run_true _ _ _ _ _ _ _ _ _ R A E) as ([_ [HL0 _] Hs Hcm Hst Hgl]&Hgoal&E1&E2&E3&E4&E5&E6&E7).
  unfold lowerbound. rewrite E4. set (c := block (gsDown s) x y) in *. change (x ÷ gsDown s) with c.1. change (y ÷ gsDown s) with c.2. rewrite within_true by (by rewrite E1, E2). cbn [negb].
  rewrite E7. rewrite (cellid_eq s s') by done. set (i := cellid s c.1 c.2). set (L := gsLargest s') in *. set (gl := block (gsDown s) gx gy) in *. pose proof HK as (_&_&HK1&_).
  assert (0 <= Z.max (Z.abs (c.1 - gl.1)) (Z.abs (c.2 - gl.2)) < Z.max (gsW s) (gsH s)) as Hn. { destruct Hc, Hgoal. lia. }
  assert (0 <= estimate K c gl < 16777216) as He by (unfold estimate; nia). assert (hfun OPTPATHFOUND s' c = estimate K c gl) as Hh. { unfold hfun. rewrite E3, E6. apply heur_exact; [done|lia|nia]. }
  assert (heur2d s' c.1 c.2 = Ok (estimate K c gl)) as Eh. { rewrite <- Hh. unfold hfun, heur2d, ftoint, int32 in *. change (?f.1 / 2 ^ ?f.2) with (trunc f) in *. rewrite Hh. by replace (_ <=? _) with true by lia. }
  rewrite Eh. cbn [obind]. set (h := estimate K c gl) in *. specialize (Hs c Hc). cbv zeta in Hs. fold i in Hs.
  assert (forall p, path grid (gsW s) (gsH s) (gsDown s) obs (gsDist s) (block (gsDown s) sx sy) c p -> (accof s' i = gsIter s' /\ gof s' i <= p /\ gof s' i + h <= L) \/ L <= p + h \/ INFINITECOST <= p) as Hcm'.
  { intros p Hpp. specialize (Hcm c p Hc Hpp). cbv zeta in Hcm. rewrite Hh in Hcm. exact Hcm. }
  clear Hcm.
  destruct (accof s' i =? gsIter s') eqn:Ea.
  - destruct (Hs ltac:(lia)) as [Hb Hp]. unfold int32. replace (gof s' i + h <=? 2147483647) with true by (unfold INFINITECOST in *; lia). cbn [obind]. destruct (gof s' i + h <=? L) eqn:Ef.
    + eexists. split; [done|]. split; [|intros; by apply Hp]. intros p Hpp Hpi. destruct (Hcm' p Hpp) as [(_&?&_)|[?|?]]; lia.
    + eexists. split; [done|]. split.
      * intros p Hpp Hpi. destruct (Hcm' p Hpp) as [(_&?&?)|[?|?]]; [lia| |lia]. replace (L <? INFINITECOST) with true by lia. lia.
      * destruct (L <? INFINITECOST) eqn:El; lia.
  - cbn [obind]. eexists. split; [done|]. split.
    + intros p Hpp Hpi. destruct (Hcm' p Hpp) as [(?&?&?)|[?|?]]; [lia| |lia]. replace (L <? INFINITECOST) with true by lia. lia.
    + destruct (L <? INFINITECOST) eqn:El; lia.
Qed.

(** C19, the goal: whatever the condition, a value of the goal below 2^24 is the exact least cost. *)
Lemma below24 gg L : 0 <= gg -> 0 <= L < 16777216 -> rne (Z.min INFINITECOST gg) <= rne L -> gg <= L.
Proof.
  intros Hg HL Hr. destruct (decide (gg <= L)); [done|]. exfalso. pose proof (rne_mono (L + 1) (Z.min INFINITECOST gg) ltac:(unfold INFINITECOST in *; lia)) as Hm. rewrite (rne_lt24 L) in Hr by lia.
  destruct (decide (L + 1 = 16777216)) as [Eq|]; [rewrite Eq in Hm; change (rne 16777216) with 16777216 in Hm; lia|]. rewrite (rne_lt24 (L + 1)) in Hm by lia. lia.
Qed.
Theorem C19_goal_exact s grid obs tc sx sy gx gy s' v : ready s -> admissible s grid obs tc -> gsearch_run grid obs tc s sx sy gx gy = Ok (true, s') ->
  lowerbound s' gx gy = Ok v -> v < 16777216 ->
  let bpath := path grid (gsW s) (gsH s) (gsDown s) obs (gsDist s) (block (gsDown s) sx sy) (block (gsDown s) gx gy) in bpath v /\ forall p, bpath p -> v <= p.
Proof.
  intros R A E Ev Hv. destruct (run_true _ _ _ _ _ _ _ _ _ R A E) as ([_ [HL0 HL1] Hs Hcm Hst Hgl]&Hgoal&E1&E2&E3&E4&E5&E6&E7).
  unfold lowerbound in Ev. rewrite E4 in Ev. set (c := block (gsDown s) gx gy) in *. change (gx ÷ gsDown s) with c.1 in Ev. change (gy ÷ gsDown s) with c.2 in Ev.
  rewrite within_true in Ev by (by rewrite E1, E2). cbn [negb] in Ev. rewrite (cellid_eq s s') in Ev by done. set (i := cellid s c.1 c.2) in *. set (L := gsLargest s') in *.
  destruct (Hs c Hgoal Hgl) as [Hb Hp]. fold i in Hb, Hp. rewrite E7, (proj2 (Z.eqb_eq _ _) Hgl) in Ev.
  assert (hfun tc s' c = 0) as Hh0. { unfold hfun. destruct tc; try done. rewrite E6, !Z.sub_diag. unfold trunc, fmulz. cbn [fst snd Z.max Z.abs]. change (rne 0) with 0. rewrite Z.mul_0_r. change (rne 0) with 0. apply Z.div_0_l.
    destruct A as (_&_&Ha). destruct (Ha eq_refl) as (K&HK&_). destruct HK as (_&Hk&_). rewrite E3. assert (0 < 2 ^ (gsCell s).2) by (apply Z.pow_pos_nonneg; lia). lia. }
  assert (v = if gof s' i <=? L then gof s' i else if L <? INFINITECOST then L else INFINITECOST) as ->.
  { destruct (decide (tc = OPTPATHFOUND)) as [Et|Et].
    - rewrite Et in Ev, Hh0. unfold heur2d, ftoint, int32 in Ev. unfold hfun in Hh0. change (?f.1 / 2 ^ ?f.2) with (trunc f) in Ev. rewrite Hh0 in Ev. cbn [Z.leb Z.compare obind] in Ev. rewrite Z.add_0_r, Z.sub_0_r in Ev.
      replace (gof s' i <=? 2147483647) with true in Ev by (unfold INFINITECOST in *; lia). cbn [obind] in Ev. by injection Ev as <-.
    - specialize (HL1 Et). assert ((if gof s' i <=? L then gof s' i else L) = v) as <-; [destruct tc; try done; by injection Ev|]. destruct (gof s' i <=? L); [done|]. destruct (L <? INFINITECOST) eqn:El; [done|]. unfold L in *. lia. }
  assert (gof s' i <= L) as Hle.
  { destruct (gof s' i <=? L) eqn:Eg; [lia|]. destruct (L <? INFINITECOST) eqn:El; [|unfold INFINITECOST in *; lia]. destruct Hst as [Hst|Hst]; [fold L in Hst; lia|]. apply below24; [lia|lia|]. by eapply stop_le; [done| |exact Hst]; apply Hb. }
  replace (gof s' i <=? L) with true in * by lia. split; [apply Hp; unfold INFINITECOST; lia|]. intros p Hpp. specialize (Hcm c p Hgoal Hpp). cbv zeta in Hcm. fold i L in Hcm. destruct Hcm as [(_&?&_)|[?|?]]; [done|lia|unfold INFINITECOST in *; lia].
Qed.

(** ** Concrete cases and counterexamples *)
Definition okv {A} (x : gres A) (d : A) : A := match x with Ok a => a | _ => d end.
Definition dummy : gsearch := mkGS 0 0 0 0 (0, 0) 0 (0, 0, 0) 0 ∅ ∅ (new_heap 0) (0, 0) 0 ALLCELLS.
Definition sized (w h : Z) (cell : Z * Z) (n : Z) : gsearch := okv (new_gs w h cell n) dummy.
Lemma sized_ok w h cell n : (match new_gs w h cell n with Ok _ => true | _ => false end) = true -> new_gs w h cell n = Ok (sized w h cell n).
Proof. unfold sized. destruct (new_gs w h cell n); done. Qed.
Lemma sized_ready w h cell n : 1 <= n <= w -> n <= h -> Z.quot w n * Z.quot h n < HEAPSIZE -> 0 <= cell.1 -> 0 <= cell.2 -> (match new_gs w h cell n with Ok _ => true | _ => false end) = true ->
  255 * (gsDist (sized w h cell n)).2 + INFINITECOST <= 2147483647 -> ready (sized w h cell n).
Proof. intros. eapply ready_new; [| | | | |by apply sized_ok|]; done. Qed.
(** Values after one search. *)
Definition after (grid : Z -> Z -> Z) (obs : Z) (tc : term) (s : gsearch) (sx sy gx gy : Z) (qs : list (Z * Z)) : option (bool * Z * list (gres Z)) :=
  match gsearch_run grid obs tc s sx sy gx gy with Ok (b, s') => Some (b, gsLargest s', map (fun q => lowerbound s' q.1 q.2) qs) | _ => None end.
Lemma after_run grid obs tc s sx sy gx gy qs b L vs : after grid obs tc s sx sy gx gy qs = Some (b, L, vs) ->
  exists s', gsearch_run grid obs tc s sx sy gx gy = Ok (b, s') /\ gsLargest s' = L /\ map (fun q => lowerbound s' q.1 q.2) qs = vs.
Proof. unfold after. destruct (gsearch_run grid obs tc s sx sy gx gy) as [[b' s']| | |] eqn:E; try done. intros [= -> <- <-]. eauto. Qed.

(** Cells of 0.05f (= 13421773 * 2^-28), 0.025f and 0.1f metres are 50, 25 and 100 mm, also when downsampled by 2. *)
Example ex_whole : whole_mm (13421773, 28) 50 /\ whole_mm (13421773, 29) 25 /\ whole_mm (13421773, 27) 100 /\ whole_mm (fmulz (13421773, 28) 2) 100.
Proof. unfold whole_mm. vm_compute. split_and!; done. Qed.
Definition exgrid (x y : Z) : Z := if (x =? 2) && (y <? 3) then 254 else if (x =? 0) && (y =? 1) then 3 else 0.
Lemma exgrid_range x y : 0 <= exgrid x y <= 255.
Proof. unfold exgrid. repeat destruct (_ && _); lia. Qed.
Example ex_ready : ready (sized 5 4 (13421773, 28) 1).
Proof. apply sized_ready; try (by vm_compute); lia || (cbn; lia) || idtac. Qed.
Example ex_admissible tc : admissible (sized 5 4 (13421773, 28) 1) exgrid 254 tc.
Proof. split; [apply exgrid_range|]. split; [lia|]. intros _. exists 50. split; [|by vm_compute]. unfold whole_mm. by vm_compute. Qed.
Lemma ready_two : ready (sized 5 4 (13421773, 28) 2).
Proof. apply sized_ready; try (by vm_compute); lia || (cbn; lia) || idtac. Qed.
Lemma ready_frac : ready (sized 3 2 (16320876, 33) 1).
Proof. apply sized_ready; try (by vm_compute); lia || (cbn; lia) || idtac. Qed.
(** A wall with one gap: the values of the three kinds of search at the start, the goal, a cell behind the wall and a far cell. *)
Example ex_values :
  after exgrid 254 ALLCELLS (sized 5 4 (13421773, 28) 1) 0 0 4 0 [(0, 0); (4, 0); (2, 0); (0, 1); (3, 3)] = Some (true, INFINITECOST, [Ok 0; Ok 371; Ok INFINITECOST; Ok 200; Ok 240]) /\
  after exgrid 254 TWOTIMES (sized 5 4 (13421773, 28) 1) 0 0 1 0 [(1, 0); (4, 0)] = Some (true, 120, [Ok 50; Ok 120]) /\
  after exgrid 254 OPTPATHFOUND (sized 5 4 (13421773, 28) 1) 0 0 4 0 [(4, 0); (0, 1); (2, 0)] = Some (true, 371, [Ok 371; Ok 171; Ok 271]).
Proof. vm_compute. split_and!; reflexivity. Qed.

(** If start and goal are in the same block, ALLCELLS computes nothing: the value 0 is returned for every other block. *)
Theorem C18_start_is_goal_refuted : exists s s' grid, ready s /\ admissible s grid 254 ALLCELLS /\ 1 <= (gsDist s).1.1 /\ gsearch_run grid 254 ALLCELLS s 0 0 0 0 = Ok (true, s') /\
  lowerbound s' 1 0 = Ok 0 /\ ~ least_below grid (gsW s) (gsH s) (gsDown s) 254 (gsDist s) INFINITECOST (0, 0) (1, 0) 0.
Proof.
  assert (after exgrid 254 ALLCELLS (sized 5 4 (13421773, 28) 1) 0 0 0 0 [(1, 0)] = Some (true, 0, [Ok 0])) as E by (vm_compute; reflexivity). apply after_run in E as (s'&E&_&Ev).
  exists (sized 5 4 (13421773, 28) 1), s', exgrid. split; [exact ex_ready|]. split; [apply ex_admissible|]. split; [clear; by vm_compute|]. split; [exact E|]. cbn [map fst snd] in Ev. injection Ev as ->. split; [reflexivity|].
  intros (_&Hp&_). specialize (Hp ltac:(unfold INFINITECOST; lia)). apply path_pos in Hp as [_ Hp]; [assert ((0 : Z, 0 : Z) <> (1, 0)) as Hne by congruence; specialize (Hp Hne); lia|intros; apply exgrid_range|clear; by vm_compute..].
Qed.
(** The constructor divides by its parameter before replacing 0 by 1. *)
Theorem C18_downsample_zero_refuted w h cell : new_gs w h cell 0 = UB.
Proof. reflexivity. Qed.
(** If the side of the map is not a multiple of the downsampling factor, asking for a cell of the map that is in the rest reads outside the array. *)
Theorem C18_margin_refuted : exists s s' x y, ready s /\ gsearch_run (fun _ _ => 0) 254 ALLCELLS s 0 0 2 2 = Ok (true, s') /\ 0 <= x < gsMapW s /\ 0 <= y < gsMapH s /\ lowerbound s' x y = UB.
Proof.
  assert (after (fun _ _ => 0) 254 ALLCELLS (sized 5 4 (13421773, 28) 2) 0 0 2 2 [(4, 0)] = Some (true, INFINITECOST, [UB])) as E by (vm_compute; reflexivity). apply after_run in E as (s'&E&_&Ev).
  exists (sized 5 4 (13421773, 28) 2), s', 4, 0. clear -E Ev. split; [exact ready_two|]. split; [exact E|]. split; [clear; by vm_compute|]. split; [clear; by vm_compute|]. cbn [map fst snd] in Ev. by injection Ev as ->.
Qed.
(** Cells of 0.0019f metres: the lengths are truncated to 1, 2 and 4 mm but the estimate is not, so that it is not consistent; with OPTPATHFOUND the value of the goal itself is above the least cost. *)
Definition fracgrid (x y : Z) : Z := if (y =? 0) && (x <? 2) then 1 else 0.
Lemma fracgrid_range x y : 0 <= fracgrid x y <= 255.
Proof. unfold fracgrid. destruct (_ && _); lia. Qed.
Lemma frac_path : let s := sized 3 2 (16320876, 33) 1 in path fracgrid (gsW s) (gsH s) (gsDown s) 255 (gsDist s) (0, 0) (2, 1) 4.
Proof.
  intros s. assert (gsW s = 3 /\ gsH s = 2 /\ gsDown s = 1 /\ gsDist s = (1, 2, 4)) as (->&->&->&->) by (vm_compute; done). clear s. replace 4 with (0 + 2 + 1 + 1) at 2 by done.
  assert (forall c, blockcost fracgrid 1 c (fracgrid c.1 c.2)) as Hb. { intros c. split; [exists 0, 0|intros dx dy ? ?]; [split; [lia|]; split; [lia|]; f_equal; lia|]. apply Z.eq_le_incl. f_equal; lia. }
  assert (forall u v x, inblocks 3 2 u -> inblocks 3 2 v -> Z.abs (v.1 - u.1) + Z.abs (v.2 - u.2) = 1 -> x = Z.max (fracgrid u.1 u.2) (fracgrid v.1 v.2) + 1 -> x < 255 -> edge fracgrid 3 2 1 255 (1, 2, 4) u v x) as He.
  { intros u v x Hu Hv Hd -> Hx. split; [done|]. split; [done|]. destruct u as [a b], v as [c d]. eexists _, _, _. split; [by apply Straight|]. split; [|split; [|split; [|cbn [fst snd]; by rewrite Z.mul_1_r]]].
    - cbn [fst snd] in *. lia.
    - destruct (Z.max_spec (fracgrid a b) (fracgrid c d)) as [[_ Em]|[_ Em]]; [exists (c, d)|exists (a, b)]; (split; [set_solver|]); cbn [fst snd]; rewrite Em; [apply (Hb (c, d))|apply (Hb (a, b))].
    - intros t k Ht Hk. rewrite (blockcost_unique _ _ _ _ _ Hk (Hb t)). cbn [fst snd]. apply elem_of_cons in Ht as [->|Ht]; [cbn; lia|]. apply elem_of_list_singleton in Ht as ->. cbn; lia. }
  eapply path_snoc; [eapply path_snoc; [eapply path_snoc; [apply path_nil|]|]|]; [apply (He (0, 0) (0, 1))|apply (He (0, 1) (1, 1))|apply (He (1, 1) (2, 1))]; clear; by vm_compute.
Qed.
Theorem C19_fractional_cell_refuted : exists s s' v, ready s /\ (forall x y, 0 <= fracgrid x y <= 255) /\ gsearch_run fracgrid 255 OPTPATHFOUND s 0 0 2 1 = Ok (true, s') /\
  lowerbound s' 2 1 = Ok v /\ exists p, path fracgrid (gsW s) (gsH s) (gsDown s) 255 (gsDist s) (0, 0) (2, 1) p /\ p < v.
Proof.
  assert (after fracgrid 255 OPTPATHFOUND (sized 3 2 (16320876, 33) 1) 0 0 2 1 [(2, 1)] = Some (true, 5, [Ok 5])) as E by (vm_compute; reflexivity). apply after_run in E as (s'&E&_&Ev).
  exists (sized 3 2 (16320876, 33) 1), s', 5. split; [exact ready_frac|]. split; [exact fracgrid_range|]. split; [exact E|]. cbn [map fst snd] in Ev. injection Ev as ->. split; [reflexivity|]. clear.
  exists 4. split; [exact frac_path|lia].
Qed.

Print Assumptions C18_constructor.
Print Assumptions C18_total.
Print Assumptions C18_all_cells.
Print Assumptions C18_start_is_goal_refuted.
Print Assumptions C18_downsample_zero_refuted.
Print Assumptions C18_margin_refuted.
Print Assumptions C19_dijkstra.
Print Assumptions C19_astar.
Print Assumptions C19_goal_exact.
Print Assumptions C19_fractional_cell_refuted.
