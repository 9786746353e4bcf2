From Coq Require Import ZifyBool.
From Verif Require Import Base DistModel DistProofs HeapModel HeapProofs GridModel GridSpec GridProofs GridProofs2.
Ltac Zify.zify_post_hook ::= idtac.
Local Open Scope Z_scope.

(** ** Floats *)
Lemma rne_nonneg n : 0 <= n -> 0 <= rne n.
Proof. intros Hn. pose proof (rne_err n Hn). lia. Qed.
Lemma rne_lt24 n : 0 <= n < 16777216 -> rne n = n.
Proof. intros Hn. apply rne_small. destruct (decide (n = 0)) as [->|]; [cbn; lia|]. assert (Z.log2 n < 24) by (apply Z.log2_lt_pow2; [lia|]; change (2 ^ 24) with 16777216; lia). lia. Qed.
Lemma rne_double n : 0 <= n -> rne (2 * n) = 2 * rne n.
Proof.
  intros Hn. destruct (decide (n = 0)) as [->|Hn0]; [done|]. unfold rne. rewrite Z.log2_double by lia. set (e := Z.log2 n - 23). replace (Z.succ (Z.log2 n) - 23) with (e + 1) by lia.
  destruct (decide (e <= -1)); [replace (e + 1 <=? 0) with true by lia; by replace (e <=? 0) with true by lia|]. replace (e + 1 <=? 0) with false by lia.
  rewrite Z.pow_add_r by lia || (replace (e + 1) with (1 + e) by lia). destruct (decide (e = 0)) as [E0|].
  - rewrite E0. replace (0 <=? 0) with true by done. change (2 ^ 0 * 2 ^ 1) with 2. rewrite (Z.mul_comm 2 n), Z.mod_mul, Z.div_mul by lia. change (2 * 0) with 0. cbn [Z.ltb Z.eqb Z.compare orb andb]. lia.
  - replace (e <=? 0) with false by lia. change (2 ^ 1) with 2. set (s := 2 ^ e). assert (0 < s) by (apply Z.pow_pos_nonneg; lia).
    replace (s * 2) with (2 * s) by lia. rewrite Z.div_mul_cancel_l by lia. rewrite Z.mul_mod_distr_l by lia.
    replace (2 * s <? 2 * (2 * (n mod s))) with (s <? 2 * (n mod s)) by lia. replace (2 * (2 * (n mod s)) =? 2 * s) with (2 * (n mod s) =? s) by lia. lia.
Qed.
Lemma rne_pow2 j n : 0 <= j -> 0 <= n -> rne (2 ^ j * n) = 2 ^ j * rne n.
Proof.
  intros Hj Hn. pattern j. apply natlike_ind; [by rewrite !Z.mul_1_l| |done]. intros k Hk IH. rewrite Z.pow_succ_r by done. rewrite <- !Z.mul_assoc. rewrite rne_double by (apply Z.mul_nonneg_nonneg; [apply Z.pow_nonneg; lia|done]). by rewrite IH.
Qed.
Lemma rne_idem n : 0 <= n -> rne (rne n) = rne n.
Proof.
  intros Hn. destruct (decide (Z.log2 n - 23 <= 0)) as [He|He]; [by rewrite !rne_small by (rewrite ?rne_small; done)|].
  destruct (rne_spec n Hn ltac:(lia)) as (Hs&_&q&->&_&Hq). rewrite (Z.mul_comm q). rewrite rne_pow2 by lia. f_equal.
  destruct (decide (q = 16777216)) as [->|]; [done|]. apply rne_lt24. lia.
Qed.
Lemma rne_inf : rne INFINITECOST = INFINITECOST.
Proof. done. Qed.

(** The four ways in which the loop may stop are at most the value of the best key. *)
Lemma factor_le tc : 0 <= (term_factor tc).1 <= 2 ^ (term_factor tc).2 /\ 0 <= (term_factor tc).2.
Proof. destruct tc; cbn; lia. Qed.
Lemma stop_le tc gg k : 0 <= k -> 0 <= gg -> goes_on tc gg k = false -> rne (Z.min INFINITECOST gg) <= rne k.
Proof.
  intros Hk Hgg. unfold goes_on, fmulz. cbn [fst snd]. destruct (factor_le tc) as [Hf Hk0]. destruct (term_factor tc) as [a b]. cbn [fst snd] in *. pose proof (rne_nonneg k Hk).
  intros Hle. assert (rne (a * rne k) <= 2 ^ b * rne k) as Hm. { rewrite <- (rne_idem k Hk) at 2. rewrite <- rne_pow2 by lia. apply rne_mono. nia. }
  assert (0 < 2 ^ b) by (apply Z.pow_pos_nonneg; lia). nia.
Qed.
Lemma stop_cap gg k : 0 <= k -> goes_on OPTPATHFOUND gg k = true -> k < INFINITECOST.
Proof.
  intros Hk. unfold goes_on, fmulz. cbn [term_factor fst snd]. rewrite !Z.mul_1_l, rne_idem, Z.pow_0_r, Z.mul_1_r by done. intros Hlt. destruct (decide (k < INFINITECOST)) as [|Hn]; [done|]. exfalso.
  pose proof (rne_mono INFINITECOST k ltac:(unfold INFINITECOST in *; lia)) as Hm. rewrite rne_inf in Hm.
  destruct (decide (0 <= gg)).
  - pose proof (rne_mono (Z.min INFINITECOST gg) INFINITECOST ltac:(unfold INFINITECOST in *; lia)) as Hm2. rewrite rne_inf in Hm2. lia.
  - assert (rne (Z.min INFINITECOST gg) <= 0); [|unfold INFINITECOST in *; lia]. rewrite rne_small; [unfold INFINITECOST; lia|]. assert (Z.log2 (Z.min INFINITECOST gg) = 0) as -> by (apply Z.log2_nonpos; unfold INFINITECOST; lia). lia.
Qed.

(** ** The heuristic *)
Definition trunc (f : Z * Z) : Z := f.1 / 2 ^ f.2.
(** 1000 times the cell size is the whole number [K] (in float arithmetic). *)
Definition whole_mm (cell : Z * Z) (K : Z) : Prop := 0 <= cell.1 /\ 0 <= cell.2 /\ 1 <= K /\ rne (cell.1 * 1000) = K * 2 ^ cell.2.
Lemma trunc_dist cell K : whole_mm cell K -> trunc (fmulz cell 1000) = K /\ K <= trunc (fmulz cell 1414) /\ 2 * K <= trunc (fmulz cell 2236).
Proof.
  intros (Hc1&Hc2&HK&Ew). unfold trunc, fmulz. cbn [fst snd]. rewrite (rne_lt24 1000), (rne_lt24 1414), (rne_lt24 2236) by lia. assert (0 < 2 ^ cell.2) by (apply Z.pow_pos_nonneg; lia). split_and!.
  - rewrite Ew. by apply Z.div_mul; lia.
  - apply Z.div_le_lower_bound; [done|]. rewrite Z.mul_comm, <- Ew. apply rne_mono. lia.
  - apply Z.div_le_lower_bound; [done|]. replace (2 ^ cell.2 * (2 * K)) with (2 * (K * 2 ^ cell.2)) by lia. rewrite <- Ew, <- rne_double by lia. apply rne_mono. lia.
Qed.
Lemma heur_exact cell K n : whole_mm cell K -> 0 <= n -> K * n < 16777216 -> trunc (fmulz (fmulz cell 1000) n) = K * n.
Proof.
  intros (Hc1&Hc2&HK&Ew) Hn Hlt. assert (n < 16777216) by nia. unfold trunc, fmulz. cbn [fst snd]. rewrite (rne_lt24 n), (rne_lt24 1000), Ew by lia. replace (K * 2 ^ cell.2 * n) with (2 ^ cell.2 * (K * n)) by lia.
  rewrite rne_pow2, rne_lt24 by lia. rewrite Z.mul_comm. apply Z.div_mul. assert (0 < 2 ^ cell.2) by (apply Z.pow_pos_nonneg; lia). lia.
Qed.

(** ** The object between calls *)
Record ginv (s : gsearch) : Prop := {
  gi_wf : gwf s;
  gi_iter : 0 <= gsIter s /\ forall i, accof s i <= gsIter s;
  gi_heap : exists m, repx None (gsOpen s) m;
  gi_dist : gsDist s = (trunc (fmulz (gsCell s) 1000), trunc (fmulz (gsCell s) 1414), trunc (fmulz (gsCell s) 2236));
  gi_pos : 0 <= (gsDist s).1.1 /\ 0 <= (gsDist s).1.2 /\ 0 <= (gsDist s).2;
  gi_small : 255 * Z.max (gsDist s).1.1 (Z.max (gsDist s).1.2 (gsDist s).2) + INFINITECOST <= 2147483647
}.
Definition astar_ok (s : gsearch) : Prop := exists K, whole_mm (gsCell s) K /\ K * Z.max (gsW s) (gsH s) < 16777216.

Definition hfun (tc : term) (s : gsearch) (c : Z * Z) : Z :=
  match tc with OPTPATHFOUND => trunc (fmulz (fmulz (gsCell s) 1000) (Z.max (Z.abs (c.1 - (gsGoal s).1)) (Z.abs (c.2 - (gsGoal s).2)))) | _ => 0 end.

Lemma cheb_move c u v len cells : move u v len cells ->
  let n (t : Z * Z) := Z.max (Z.abs (t.1 - c.1)) (Z.abs (t.2 - c.2)) in
  n u <= n v + (if decide (Z.abs (v.1 - u.1) <= 1 /\ Z.abs (v.2 - u.2) <= 1) then 1 else 2) .
Proof. intros Hm n. unfold n. inversion Hm; subst; cbn [fst snd]; destruct (decide _); lia. Qed.
Lemma move_len dist u v len cells : move u v len cells -> (Z.abs (v.1 - u.1) <= 1 /\ Z.abs (v.2 - u.2) <= 1 -> len dist = dist.1.1 \/ len dist = dist.1.2) /\ (~ (Z.abs (v.1 - u.1) <= 1 /\ Z.abs (v.2 - u.2) <= 1) -> len dist = dist.2).
Proof. intros Hm. inversion Hm; subst; cbn [fst snd]; split; try lia; auto. Qed.

#[global] Instance term_eq_dec : EqDecision term.
Proof. solve_decision. Defined.
#[global] Instance inblocks_dec w h c : Decision (inblocks w h c).
Proof. unfold inblocks. apply _. Defined.
Section searchspec.
Context (grid : Z -> Z -> Z) (obs : Z) (tc : term).
Definition prepared (s : gsearch) (gx gy : Z) (o : heap Z) : gsearch :=
  mkGS (gsMapW s) (gsMapH s) (gsW s) (gsH s) (gsCell s) (gsDown s) (gsDist s) (gsIter s + 1) (gsG s) (gsAcc s) o (gx, gy) (gsLargest s) tc.

Lemma hfun_cons (s0 : gsearch) : gwf s0 -> (forall x y, 0 <= grid x y) -> (tc = OPTPATHFOUND -> astar_ok s0) -> inblocks (gsW s0) (gsH s0) (gsGoal s0) ->
  gsDist s0 = (trunc (fmulz (gsCell s0) 1000), trunc (fmulz (gsCell s0) 1414), trunc (fmulz (gsCell s0) 2236)) -> 0 <= (gsDist s0).1.1 /\ 0 <= (gsDist s0).1.2 /\ 0 <= (gsDist s0).2 ->
  (forall u v c, edge grid (gsW s0) (gsH s0) (gsDown s0) obs (gsDist s0) u v c -> hfun tc s0 u <= c + hfun tc s0 v) /\
  (forall u, inblocks (gsW s0) (gsH s0) u -> 0 <= hfun tc s0 u <= 16777216) /\
  (forall s u g, static s = static s0 -> inblocks (gsW s0) (gsH s0) u -> 0 <= g <= INFINITECOST -> mkkey tc s g u.1 u.2 = Ok (g + hfun tc s0 u)).
Proof.
  intros Hwf Hgrid Ha Hgoal Hdist Hpos.
  assert (forall u v c, edge grid (gsW s0) (gsH s0) (gsDown s0) obs (gsDist s0) u v c -> exists len cells, inblocks (gsW s0) (gsH s0) u /\ inblocks (gsW s0) (gsH s0) v /\ move u v len cells /\ len (gsDist s0) <= c /\ 0 <= c) as Hedge.
  { intros u v c (Hu&Hv&len&cells&M&Hmv&_&(t&_&(dx&dy&_&_&<-)&_)&_&->). exists len, cells. split; [done|]. split; [done|]. split; [done|]. pose proof (Hgrid (t.1 * gsDown s0 + dx) (t.2 * gsDown s0 + dy)).
    assert (0 <= len (gsDist s0)); [|nia]. inversion Hmv; subst; lia. }
  destruct (decide (tc = OPTPATHFOUND)) as [Et|Et].
  2:{ assert (forall u, hfun tc s0 u = 0) as Hz by (intros; unfold hfun; by destruct tc). split_and!.
      - intros u v c He. destruct (Hedge u v c He) as (_&_&_&_&_&_&Hc). rewrite !Hz. lia.
      - intros u _. rewrite Hz. lia.
      - intros s u g _ _ _. rewrite Hz, Z.add_0_r. unfold mkkey. by destruct tc. }
  destruct (Ha Et) as (K&HK&Hlt). destruct (trunc_dist _ _ HK) as (D1&D2&D3). pose proof HK as (Hc1&Hc2&HK1&HKe).
  assert (forall u, inblocks (gsW s0) (gsH s0) u -> let n := Z.max (Z.abs (u.1 - (gsGoal s0).1)) (Z.abs (u.2 - (gsGoal s0).2)) in 0 <= n /\ K * n < 16777216 /\ trunc (fmulz (fmulz (gsCell s0) 1000) n) = K * n) as Hn.
  { intros u [Hx Hy] n. destruct Hgoal as [Hgx Hgy]. assert (0 <= n < Z.max (gsW s0) (gsH s0)) by (unfold n; lia). assert (K * n < 16777216) by nia. split; [lia|]. split; [done|]. apply heur_exact; [done|lia|done]. }
  assert (forall u, inblocks (gsW s0) (gsH s0) u -> hfun tc s0 u = K * Z.max (Z.abs (u.1 - (gsGoal s0).1)) (Z.abs (u.2 - (gsGoal s0).2))) as Hh.
  { intros u Hu. unfold hfun. rewrite Et. by apply Hn. }
  split_and!.
  - intros u v c He. destruct (Hedge u v c He) as (len&cells&Hu&Hv&Hmv&Hlen&_). rewrite !Hh by done. pose proof (cheb_move (gsGoal s0) _ _ _ _ Hmv) as Hch. cbv zeta in Hch.
    destruct (move_len (gsDist s0) _ _ _ _ Hmv) as [L1 L2]. rewrite Hdist in L1, L2, Hlen. cbn [fst snd] in L1, L2. destruct (decide _) as [Hd|Hd] in Hch; [destruct (L1 Hd)|specialize (L2 Hd)]; nia.
  - intros u Hu. rewrite Hh by done. destruct (Hn u Hu) as (?&?&_). nia.
  - intros s u g Hst Hu Hg. apply static_inv in Hst as (_&_&_&_&E5&_&_&_&E9&_). rewrite Hh by done. destruct (Hn u Hu) as (?&?&Hhe). cbv zeta in Hhe. unfold mkkey. rewrite Et. unfold heur2d. rewrite E5, E9. unfold ftoint.
    unfold trunc in Hhe. rewrite Hhe. unfold int32. unfold INFINITECOST in *. replace (_ <=? _) with true by nia. cbn [obind]. by replace (_ <=? _) with true by nia.
Qed.

(** What one successful search leaves behind. *)
Record result (s s' : gsearch) (start goal : Z * Z) : Prop := {
  r_same : static s' = static (prepared s goal.1 goal.2 (gsOpen s));
  r_largest : 0 <= gsLargest s' /\ (tc <> OPTPATHFOUND -> gsLargest s' <= INFINITECOST);
  r_sound : forall c, inblocks (gsW s) (gsH s) c -> let i := cellid s c.1 c.2 in accof s' i = gsIter s' ->
    0 <= gof s' i <= INFINITECOST /\ (gof s' i < INFINITECOST -> path grid (gsW s) (gsH s) (gsDown s) obs (gsDist s) start c (gof s' i));
  r_complete : forall c p, inblocks (gsW s) (gsH s) c -> path grid (gsW s) (gsH s) (gsDown s) obs (gsDist s) start c p -> let i := cellid s c.1 c.2 in
    (accof s' i = gsIter s' /\ gof s' i <= p /\ gof s' i + hfun tc s' c <= gsLargest s') \/ gsLargest s' <= p + hfun tc s' c \/ INFINITECOST <= p;
  r_stop : gsLargest s' = INFINITECOST \/ goes_on tc (gof s' (cellid s goal.1 goal.2)) (gsLargest s') = false;
  r_goal : accof s' (cellid s goal.1 goal.2) = gsIter s'
}.

Lemma search_ok (s : gsearch) (start goal : Z * Z) :
  ginv s -> (forall x y, 0 <= grid x y) -> obs <= 255 -> (tc = OPTPATHFOUND -> astar_ok s) ->
  exists b s', search_withheap grid obs tc s start.1 start.2 goal.1 goal.2 = Ok (b, s') /\ ginv s' /\ static s' = static (prepared s goal.1 goal.2 (gsOpen s)) /\
    (b = true <-> inblocks (gsW s) (gsH s) start /\ inblocks (gsW s) (gsH s) goal) /\ (b = true -> result s s' start goal).
Proof.
  intros G Hgrid Hobs Hast. destruct (gi_heap _ G) as [m0 R0]. destruct (gi_iter _ G) as [Hit Hacc].
  unfold search_withheap. destruct (makeemptyheap_spec intops _ _ R0) as (o&Eo&Ro&Oo). cbn [gsOpen]. rewrite Eo. cbn [hlift obind gsMapW gsMapH gsW gsH gsCell gsDown gsDist gsIter gsG gsAcc gsOpen gsGoal gsLargest gsTerm].
  fold (prepared s goal.1 goal.2 o). set (s1 := prepared s goal.1 goal.2 o).
  assert (forall x y, withinMap s1 x y = bool_decide (inblocks (gsW s) (gsH s) (x, y))) as Hwm. { intros x y. unfold withinMap, inblocks. cbn [s1 prepared gsW gsH fst snd]. destruct (bool_decide _) eqn:E; [apply bool_decide_eq_true in E; lia|apply bool_decide_eq_false in E; lia]. }
  rewrite !Hwm, <- !surjective_pairing.
  destruct (bool_decide (inblocks (gsW s) (gsH s) start)) eqn:Es; destruct (bool_decide (inblocks (gsW s) (gsH s) goal)) eqn:Egl; cbn [negb orb];
    try (exists false, s1; split; [done|]; split; [split; [apply (gi_wf _ G)|split; [cbn; lia|]; intros i; specialize (Hacc i); change (accof s1 i) with (accof s i); cbn; lia|by exists ∅|apply (gi_dist _ G)|apply (gi_pos _ G)|apply (gi_small _ G)]|]; split; [done|];
      split; [|done]; split; [done|]; intros [? ?]; repeat match goal with H : bool_decide _ = false |- _ => apply bool_decide_eq_false in H end; done).
  apply bool_decide_eq_true in Es, Egl.
  assert (gwf s1) as Hwf1 by apply (gi_wf _ G).
  destruct (hfun_cons s1 Hwf1 Hgrid Hast) as (Hcons&Hhb&Hkey); [destruct goal; exact Egl|apply (gi_dist _ G)|apply (gi_pos _ G)|].
  set (si := cellid s1 start.1 start.2). set (gi := cellid s1 goal.1 goal.2).
  destruct (cellof_cellid s1 s1 start eq_refl Es) as [Esi Hvs]. destruct (cellof_cellid s1 s1 goal eq_refl Egl) as [Egi Hvg]. fold si in Esi, Hvs. fold gi in Egi, Hvg.
  set (s2 := set_g (initialize (initialize s1 si) gi) si 0).
  assert (static s2 = static s1) as Hst2 by done.
  change (cellid s1 start.1 start.2) with si. change (cellid s1 goal.1 goal.2) with gi. fold s2.
  rewrite (Hkey s2 start 0 Hst2 Es) by (unfold INFINITECOST; lia). cbn [obind]. rewrite Z.add_0_l.
  assert (repx None (gsOpen s2) ∅ /\ ord intops 1 (gsOpen s2)) as [R2 O2].
  { change (gsOpen s2) with (set_idx (set_idx o si 0) gi 0). destruct Ro as (A1&A2&A3&A4&A5). split; [|done]. split_and!; [done|done| | |].
    - intros i Hi. destruct (A3 i Hi) as (?&?&_&?&_). by rewrite lookup_empty in *.
    - intros i k Hi. by rewrite lookup_empty in Hi.
    - intros i _ _. rewrite !idxof_set_idx. destruct (decide _); [done|]. destruct (decide _); [done|]. by apply A5. }
  destruct (insertheap_spec intops intlaws (gsOpen s2) ∅ si (hfun tc s1 start) R2 O2) as (o3&Eo3&R3&O3); [done|rewrite map_size_empty; unfold HEAPSIZE; lia|]. rewrite Eo3. cbn [hlift obind].
  set (s3 := with_open s2 o3). set (hh := fun i => hfun tc s1 (cellof s1 i)).
  assert (forall i, accof s3 i = if decide (i = si \/ i = gi) then gsIter s1 else accof s i) as Hacc3.
  { intros i. change (accof s3 i) with (accof (set_acc (set_acc s1 si) gi) i). rewrite !accof_set_acc. change (gsIter (set_acc s1 si)) with (gsIter s1). destruct (decide (i = gi)), (decide (i = si)); destruct (decide (i = si \/ i = gi)); try done; tauto. }
  assert (forall i, gof s3 i = if decide (i = si) then 0 else if decide (i = gi) then INFINITECOST else gof s i) as Hg3.
  { intros i. change (gof s3 i) with (gof s2 i). unfold s2. rewrite gof_set_g. destruct (decide (i = si)); [done|]. change (gof (initialize (initialize s1 si) gi) i) with (gof (set_g (set_g s1 si INFINITECOST) gi INFINITECOST) i). rewrite !gof_set_g. destruct (decide (i = gi)); [done|]. by rewrite decide_False. }
  assert (gsIter s1 = gsIter s + 1) as Eit by done.
  assert (linv grid obs s1 si hh ∅ s3 {[si := hfun tc s1 start]}) as L.
  { split; [split|..].
    - done.
    - exact R3.
    - done.
    - intros i k Hi. apply lookup_singleton_Some in Hi as [<- <-]. split; [set_solver|]. rewrite Hacc3, decide_True by auto. split; [done|]. rewrite Hg3, decide_True by done. unfold hh. rewrite Esi. lia.
    - intros i Hi. rewrite Hacc3 in Hi. destruct (decide (i = si \/ i = gi)) as [Hd|Hd]; [|specialize (Hacc i); lia]. rewrite Hg3. destruct (decide (i = si)) as [->|Hne].
      + split; [done|]. split; [unfold INFINITECOST; lia|]. split; [right; left; rewrite lookup_singleton; eauto|]. intros _. apply path_nil.
      + destruct Hd as [| ->]; [done|]. rewrite decide_True by done. split; [done|]. split; [unfold INFINITECOST; lia|]. split; [auto|]. lia.
    - intros i Hi. by apply elem_of_empty in Hi.
    - rewrite Hacc3, Hg3, !decide_True by auto. split; [done|]. split; [done|]. right. rewrite lookup_singleton. eauto.
    - intros i. rewrite Hacc3. destruct (decide _); [lia|]. specialize (Hacc i). lia.
    - intros i j c Hi. by apply elem_of_empty in Hi.
    - intros i j c Hi. by apply elem_of_empty in Hi.
    - right. intros i Hi. by apply elem_of_empty in Hi. }
  assert (forall i, valid s1 i -> 0 <= hh i) as Hh0. { intros i Hi. apply Hhb. by apply inblocks_cellof. }
  assert (0 <= (gsDist s1).1.1 /\ 0 <= (gsDist s1).1.2 /\ 0 <= (gsDist s1).2 /\ 255 * Z.max (gsDist s1).1.1 (Z.max (gsDist s1).1.2 (gsDist s1).2) + INFINITECOST <= 2147483647) as X1.
  { split_and!; try apply (gi_pos _ G). apply (gi_small _ G). }
  assert (forall s' i g, static s' = static s1 -> valid s1 i -> 0 <= g <= INFINITECOST -> mkkey tc s' g (cellof s1 i).1 (cellof s1 i).2 = Ok (g + hh i)) as X2.
  { intros s' i g Hs' Hi Hg. apply Hkey; [done|by apply inblocks_cellof|done]. }
  assert (forall i j c, valid s1 i -> valid s1 j -> E grid obs s1 i j c -> hh i <= c + hh j) as X3.
  { intros i j c _ _ HE. by apply Hcons. }
  assert (forall gg k, 0 <= k -> goes_on tc gg k = true -> (forall i, valid s1 i -> hh i = 0) \/ k < INFINITECOST) as X4.
  { intros gg k Hk Hgo. destruct (decide (tc = OPTPATHFOUND)) as [Et|Et]; [right; rewrite Et in Hgo; by eapply stop_cap|left]. intros i _. unfold hh, hfun. by destruct tc. }
  destruct (gloop_ok grid obs tc s1 si hh Hwf1 Hgrid Hobs X1 X2 X3 Hh0 X4 gi (Z.to_nat (gsW s1 * gsH s1) + 1)%nat ∅ s3 {[si := hfun tc s1 start]} L) as (s4&cl&m4&E4&L4&Hmn&Hend); [lia|].
  change (gsW s2) with (gsW s1). change (gsH s2) with (gsH s1). fold s3. rewrite E4. cbn [obind]. pose proof (l_base _ _ _ _ _ _ _ _ L4) as B4. pose proof (b_static _ _ _ _ _ _ _ _ B4) as Hst4.
  pose proof (rep_empty_cur _ _ (b_rep _ _ _ _ _ _ _ _ B4)) as Hem.
  assert (exists Lg, (if emptyheap (gsOpen s4) then Ok INFINITECOST else hlift (getminkeyheap intops (gsOpen s4))) = Ok Lg /\ largest s4 m4 Lg /\ (m4 = ∅ \/ getminkeyheap intops (gsOpen s4) = Ok Lg)) as (Lg&EL&HL&HLk).
  { unfold emptyheap. destruct (cur (gsOpen s4) =? 0)%nat eqn:Ec.
    - assert (m4 = ∅) as -> by (apply Hem; lia). exists INFINITECOST. split; [done|]. split; [by left|by left].
    - assert (m4 <> ∅) as Hm by (rewrite Hem; lia). destruct (getmin_spec intops intlaws _ _ (b_rep _ _ _ _ _ _ _ _ B4) (b_ord _ _ _ _ _ _ _ _ B4) Hm) as (u&k&_&Ek&Hu&Hmin). rewrite Ek. exists k. split; [done|]. split; [|by right].
      right. split; [by exists u|]. intros j k' Hj. specialize (Hmin j k' Hj). unfold kle in Hmin. cbn in Hmin. lia. }
  rewrite EL. cbn [obind]. set (s5 := set_largest s4 Lg). exists true, s5.
  assert (static s5 = static s1) as Hst5 by done. pose proof (static_inv _ _ Hst5) as (F1&F2&F3&F4&F5&F6&F7&F8&F9&F10).
  split; [done|]. split.
  { split.
    - unfold gwf. rewrite F1, F2, F3, F4, F6. apply Hwf1.
    - rewrite F8. split; [lia|]. intros i. apply (b_le _ _ _ _ _ _ _ _ B4).
    - exists m4. apply (b_rep _ _ _ _ _ _ _ _ B4).
    - rewrite F7, F5. apply (gi_dist _ G).
    - rewrite F7. apply (gi_pos _ G).
    - rewrite F7. apply (gi_small _ G). }
  split; [done|]. split; [done|]. intros _.
  assert (forall c, hfun tc s5 c = hfun tc s1 c) as Hhf. { intros c. unfold hfun. destruct tc; try done. by rewrite F5, F9. }
  split.
  - done.
  - change (gsLargest s5) with Lg. destruct HL as [[_ ->]|[[i Hi] _]]; [unfold INFINITECOST; lia|]. destruct (b_open _ _ _ _ _ _ _ _ B4 i Lg Hi) as (_&Ha&->). destruct (b_acc _ _ _ _ _ _ _ _ B4 i Ha) as (Hv&Hg&_). specialize (Hh0 i Hv). split; [lia|]. intros Ht. replace (hh i) with 0 by (unfold hh, hfun; by destruct tc). lia.
  - intros c Hc i Ha. destruct (cellof_cellid s1 s1 c eq_refl Hc) as [Ec Hv]. change (cellid s1 c.1 c.2) with i in Ec, Hv. rewrite F8 in Ha. destruct (b_acc _ _ _ _ _ _ _ _ B4 i Ha) as (_&Hg&_&Hp). split; [done|]. rewrite Ec, Esi in Hp. done.
  - intros c p Hc Hp i. destruct (cellof_cellid s1 s1 c eq_refl Hc) as [Ec Hv]. change (cellid s1 c.1 c.2) with i in Ec, Hv. rewrite Hhf. change (gsLargest s5) with Lg. rewrite F8.
    assert (path grid (gsW s1) (gsH s1) (gsDown s1) obs (gsDist s1) (cellof s1 si) (cellof s1 i) p) as Hp' by (by rewrite Esi, Ec).
    destruct (final_ok grid obs tc s1 si hh Hwf1 Hgrid X1 X2 X3 Hh0 X4 cl s4 m4 Lg L4 HL Hvs i p Hv Hp') as [[Hcl Hg]|[Hr|Hr]].
    + left. split; [by apply (b_closed _ _ _ _ _ _ _ _ B4)|]. split; [done|]. replace (hfun tc s1 c) with (hh i) by (unfold hh; by rewrite Ec).
      destruct HL as [[_ ->]|[[j Hj] _]]; [|by apply (l_ordered _ _ _ _ _ _ _ _ L4 i j)]. destruct (l_capped _ _ _ _ _ _ _ _ L4) as [Hz|Hz]; [|by apply Z.lt_le_incl, Hz].
      rewrite Hz by done. pose proof (b_closed _ _ _ _ _ _ _ _ B4 i Hcl) as Ha. destruct (b_acc _ _ _ _ _ _ _ _ B4 i Ha) as (_&Hg'&_). change (gof s5 i) with (gof s4 i). lia.
    + right. left. unfold hh in Hr. by rewrite Ec in Hr.
    + by right; right.
  - change (gsLargest s5) with Lg. destruct Hend as [->|(k&Ek&Hk)]; [left; destruct HL as [[_ ->]|[[i Hi] _]]; [done|by rewrite lookup_empty in Hi]|]. destruct HLk as [->|Ek']; [left; destruct HL as [[_ ->]|[[i Hi] _]]; [done|by rewrite lookup_empty in Hi]|]. rewrite Ek in Ek'. injection Ek' as <-. by right.
  - rewrite F8. apply Hmn. change (cellid s goal.1 goal.2) with gi. by rewrite Hacc3, decide_True by auto.
Qed.
End searchspec.
