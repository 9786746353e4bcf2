(** C15: the distance transform computeDistancestoNonfreeAreas. *)
From Coq Require Import ZifyBool.
From Verif Require Import Base DistModel DistSpec DistProofs.
Local Open Scope Z_scope.

(** [nearest seeds c v]: [v] is the least chamfer distance from [c] to a cell of [seeds]. *)
Definition nearest (one diag : Z) (seeds : Z * Z -> Prop) (c : Z * Z) (v : Z) : Prop :=
  (forall t, seeds t -> v <= chamfer one diag c t) /\ exists t, seeds t /\ chamfer one diag c t = v.

(** In exact arithmetic, for every map, threshold, and step costs with one <= diag <= 2 one: the function terminates without reading a
    cell that was not written, and gives for every cell of the map exactly the least chamfer distance to an obstacle (first component)
    and to a cell that is not free (second component), where all cells outside the map count as obstacles. *)
Theorem C15_exact one diag grid w h thr A0 : 0 < one <= diag -> diag <= 2 * one ->
  exists A, distances Z.add one diag (one * Z.min w h) grid w h thr A0 = Ok A /\
    forall c, inmap w h c -> exists vo vn, A !! c = Some (vo, vn) /\ nearest one diag (isobs grid w h thr) c vo /\ nearest one diag (isnonfree grid w h thr) c vn.
Proof.
  intros H1 H2. destruct (distances_spec Z.add one diag (one * Z.min w h) grid w h thr 1 1 1 (Z.max 0 (Z.min w h))) with (A0 := A0) as (A&E&H); try lia.
  { intros m v Hm. rewrite !Z.pow_1_l by lia. intros. assert ((m + 1) * one <= one * Z.min w h) by lia. nia. }
  exists A. split; [done|]. intros c Hc. destruct (H c Hc) as ([vo vn]&Hv&Hb). exists vo, vn. split; [done|].
  assert (forall b, nearest one diag (seed grid w h thr b) c (sel b (vo, vn))) as Hn; [|split; [apply (Hn true)|apply (Hn false)]].
  intros b. destruct (Hb b) as [(Hv0&t&m&Ht&Hm&Hl&_) Hu]. rewrite !Z.pow_1_l in Hl by lia.
  assert (forall t, seed grid w h thr b t -> sel b (vo, vn) <= chamfer one diag c t) as Hu'.
  { intros t' Ht'. specialize (Hu t' Ht'). unfold ub in Hu. rewrite !Z.pow_1_l in Hu by apply steps_nonneg. lia. }
  split; [done|]. exists t. split; [done|]. specialize (Hu' t Ht). lia.
Qed.

(** (1 - 1/U)^k >= 1 - k/U. *)
Lemma bernoulli U k : 0 < U -> 0 <= k <= U -> (U - k) * U ^ k <= U * (U - 1) ^ k.
Proof.
  intros HU [Hk Hku]. revert Hku. pattern k. apply natlike_ind; [cbn; lia| |done]. intros j Hj IH Hju.
  replace (Z.succ j) with (j + 1) by lia. rewrite !pow_S by done. specialize (IH ltac:(lia)). assert (0 < U ^ j) by (by apply Z.pow_pos_nonneg). 
  replace (U * ((U - 1) * (U - 1) ^ j)) with ((U - 1) * (U * (U - 1) ^ j)) by lia. etrans; [|apply Z.mul_le_mono_nonneg_l; [lia|exact IH]].
  replace ((U - (j + 1)) * (U * U ^ j)) with (((U - (j + 1)) * U) * U ^ j) by lia. rewrite Z.mul_assoc. apply Z.mul_le_mono_nonneg_r; [lia|]. nia.
Qed.

(** The function as it is, with IEEE single precision arithmetic, on maps whose smaller side is below 2^22 cells: every value [v]
    is the least chamfer distance up to the rounding of at most 2 min(width, height) additions, each off by at most 1 part in 2^24. *)
Definition nearest_rounded (N : Z) (seeds : Z * Z -> Prop) (c : Z * Z) (v : Z) : Prop :=
  (forall t, seeds t -> 16777216 ^ steps c t * v <= 16777217 ^ steps c t * chamfer fone fdiag c t) /\
  (exists t, seeds t /\ 16777215 ^ N * chamfer fone fdiag c t <= 16777216 ^ N * v) /\
  (v = 0 <-> seeds c).
Theorem C15_float grid w h thr A0 : Z.min w h < 4194304 ->
  exists A, distances_float grid w h thr A0 = Ok A /\
    forall c, inmap w h c -> exists vo vn, A !! c = Some (vo, vn) /\
      nearest_rounded (2 * Z.min w h) (isobs grid w h thr) c vo /\ nearest_rounded (2 * Z.min w h) (isnonfree grid w h thr) c vn.
Proof.
  intros HK. unfold distances_float. set (K := Z.min w h) in *.
  assert (rne (K * fone) <= Z.max 0 K * fone) as HrK. { destruct (decide (0 <= K)); [rewrite rne_int by lia; unfold fone; lia|]. rewrite rne_small; [unfold fone; lia|]. assert (Z.log2 (K * fone) = 0) as -> by (apply Z.log2_nonpos; unfold fone; lia). lia. }
  destruct (distances_spec fadd fone fdiag (rne (K * fone)) grid w h thr 16777216 16777217 16777215 (Z.max 0 (2 * K))) with (A0 := A0) as (A&E&H).
  - unfold fone, fdiag; lia.
  - lia.
  - lia.
  - intros c x y Hc Hxy. unfold fadd. apply rne_mono. lia.
  - intros x y Hx Hy. unfold fadd. apply rne_err. lia.
  - intros c [Hx Hy]. fold K. rewrite rne_int by lia. lia.
  - intros m v Hm H1 H2. destruct (decide (m + 1 <= Z.max 0 (2 * K))) as [|Hn]; [done|]. exfalso. assert (m = Z.max 0 (2 * K)) as Em by lia.
    pose proof (bernoulli 16777216 (m + 1) ltac:(lia) ltac:(lia)) as Hb. change (16777216 - 1) with 16777215 in Hb.
    assert (0 < 16777216 ^ (m + 1)) as Hp by (apply Z.pow_pos_nonneg; lia). set (UP := 16777216 ^ (m + 1)) in *. set (MP := 16777215 ^ (m + 1)) in *.
    assert ((m + 1) * ((16777216 - (m + 1)) * UP) * fone <= 16777216 * (UP * v)) as H3.
    { etrans; [apply Z.mul_le_mono_nonneg_r; [unfold fone; lia|]; apply Z.mul_le_mono_nonneg_l; [lia|exact Hb]|]. replace ((m + 1) * (16777216 * MP) * fone) with (16777216 * ((m + 1) * fone * MP)) by lia. lia. }
    assert (UP * ((m + 1) * (16777216 - (m + 1)) * fone) <= UP * (16777216 * v)) as H4 by lia. apply Z.mul_le_mono_pos_l in H4; [|done].
    assert ((m + 1) * (16777216 - (m + 1)) * fone <= (16777216 * Z.max 0 K) * fone) as H5 by lia. apply Z.mul_le_mono_pos_r in H5; [|unfold fone; lia].
    destruct (decide (0 <= K)); [|lia]. replace (Z.max 0 K) with K in H5 by lia. replace (m + 1) with (2 * K + 1) in H5 by lia. nia.
  - exists A. split; [done|]. intros c Hc. destruct (H c Hc) as ([vo vn]&Hv&Hb). exists vo, vn. split; [done|]. assert (0 <= K) by (destruct Hc; lia). replace (Z.max 0 (2 * K)) with (2 * K) in * by lia.
    assert (forall b, nearest_rounded (2 * K) (seed grid w h thr b) c (sel b (vo, vn))) as Hn; [|split; [apply (Hn true)|apply (Hn false)]].
    intros b. destruct (Hb b) as [(Hv0&t&m&Ht&Hm&Hl&_) Hu]. split; [|split].
    + intros t' Ht'. apply (Hu t' Ht').
    + exists t. split; [done|]. replace (2 * K) with (m + (2 * K - m)) by lia. rewrite !Z.pow_add_r by lia. set (j := 2 * K - m).
      assert (16777215 ^ j <= 16777216 ^ j) by (apply Z.pow_le_mono_l; lia). assert (0 <= 16777215 ^ j) by (apply Z.pow_nonneg; lia).
      assert (0 <= chamfer fone fdiag c t) by (apply chamfer_nonneg; unfold fone, fdiag; lia). assert (0 <= 16777216 ^ m) by (apply Z.pow_nonneg; lia). nia.
    + split.
      * intros Hz. rewrite Hz, Z.mul_0_r in Hl. assert (0 < 16777215 ^ m) by (apply Z.pow_pos_nonneg; lia).
        assert (chamfer fone fdiag c t = 0) as Hc0. { pose proof (chamfer_nonneg fone fdiag ltac:(unfold fone, fdiag; lia) c t). nia. }
        assert (t = c) as ->; [|done]. unfold chamfer in Hc0. destruct c as [cx cy], t as [tx ty]. cbn [fst snd] in Hc0. unfold fone, fdiag in Hc0. f_equal; lia.
      * intros Hs. specialize (Hu c Hs). unfold ub, steps, chamfer in Hu. rewrite !Z.sub_diag in Hu. change (Z.max (Z.abs 0) (Z.abs 0)) with 0 in Hu. rewrite !Z.pow_0_r in Hu. change (Z.min (Z.abs 0) (Z.abs 0)) with 0 in Hu. lia.
Qed.

(** A map that meets the hypotheses; the values are in units of 2^-23 (1.0 is 8388608, 1.414 is 11861492). *)
Definition ex_grid (x y : Z) : Z := if (x =? 3) && (y =? 3) then 254 else if (x =? 9) && (y =? 11) then 7 else 0.
Lemma look_at grid w h thr A c : distances_float grid w h thr ∅ = Ok A -> A !! c = match distances_float grid w h thr ∅ with Ok A => A !! c | _ => None end.
Proof. by intros ->. Qed.
Example hypotheses_met : Z.min 21 21 < 4194304 /\ exists A, distances_float ex_grid 21 21 254 ∅ = Ok A /\
  A !! (3, 4) = Some (8388608, 8388608) /\ A !! (9, 11) = Some (83886080, 0) /\ A !! (8, 10) = Some (75497472, 11861492).
Proof. split; [done|]. destruct (C15_float ex_grid 21 21 254 ∅ eq_refl) as (A&E&_). exists A. split; [exact E|]. rewrite !(look_at _ _ _ _ A _ E). clear E. by vm_compute. Qed.

(** With rounding the values are not always exact: seven diagonal steps from the obstacle at (3,3). *)
Theorem C15_float_exact_refuted : exists A v, distances_float ex_grid 21 21 254 ∅ = Ok A /\ A !! (10, 10) = Some v /\ v.1 <> chamfer fone fdiag (10, 10) (3, 3) /\ Z.abs (v.1 - chamfer fone fdiag (10, 10) (3, 3)) < 16.
Proof.
  destruct (C15_float ex_grid 21 21 254 ∅ eq_refl) as (A&E&_). exists A. eexists. split; [exact E|]. rewrite !(look_at _ _ _ _ A _ E). clear E. split; [vm_compute; reflexivity|]. by vm_compute.
Qed.

Print Assumptions C15_exact.
Print Assumptions C15_float.
Print Assumptions C15_float_exact_refuted.
