From Coq Require Import ZifyBool ZifyNat.
From Verif Require Import Base BresModel.
Local Open Scope Z_scope.

(** Minor-axis offset after k steps: m*k/n rounded half up (forward) or half down (backward). *)
Definition joff (inc n m k : Z) : Z :=
  if inc >? 0 then (2 * m * k + n) / (2 * n) else - ((n - 2 * m * k) / (2 * n)).

Lemma joff_range inc n m k : 0 < n -> - n <= 2 * m * k - 2 * n * joff inc n m k <= n /\
  (inc > 0 -> 2 * m * k - 2 * n * joff inc n m k < n) /\
  (inc <= 0 -> - n < 2 * m * k - 2 * n * joff inc n m k).
Proof.
  intros Hn. unfold joff. destruct (Z.gtb_spec inc 0).
  - pose proof (Z.div_mod (2*m*k+n) (2*n) ltac:(lia)). pose proof (Z.mod_pos_bound (2*m*k+n) (2*n) ltac:(lia)). nia.
  - pose proof (Z.div_mod (n-2*m*k) (2*n) ltac:(lia)). pose proof (Z.mod_pos_bound (n-2*m*k) (2*n) ltac:(lia)). nia.
Qed.
(** The bounds determine the offset. *)
Lemma joff_unique inc n m k j : 0 < n -> - n <= 2 * m * k - 2 * n * j <= n ->
  (inc > 0 -> 2 * m * k - 2 * n * j < n) -> (inc <= 0 -> - n < 2 * m * k - 2 * n * j) ->
  j = joff inc n m k.
Proof.
  intros Hn H1 H2 H3. pose proof (joff_range inc n m k Hn) as (R1&R2&R3).
  set (j' := joff inc n m k) in *.
  destruct (Z.gtb_spec inc 0).
  - specialize (H2 ltac:(lia)). specialize (R2 ltac:(lia)). nia.
  - specialize (H3 ltac:(lia)). specialize (R3 ltac:(lia)). nia.
Qed.

Section line.
Variables (x1 y1 inc n m : Z) (usingY flip : bool).
Hypothesis Hinc : inc = 1 \/ inc = -1.
Hypothesis Hm : 0 <= m <= n.

(** State of the iterator after k steps. *)
Definition bstate (k : Z) : bres :=
  let j := if n =? 0 then 0 else joff inc n m k in
  mkBres x1 y1 (x1 + inc * n) (y1 + inc * m) inc usingY (inc * n) (inc * m)
    (2 * m * (k + 1) - n - 2 * n * j) (2 * m) (2 * (m - n)) (x1 + inc * k) (y1 + inc * j) flip.

Lemma bstate_next k : 0 <= k < n -> get_next_point (bstate k) = Some (bstate (k + 1)).
Proof.
  intros Hk. unfold get_next_point, bstate. cbn [bX bX2 bInc bDTerm bIncrE bIncrNE bX1 bY1 bY2 bUsingY bDX bDY bY bFlip].
  destruct (Z.eqb_spec n 0) as [|Hn]; [lia|].
  destruct (Z.eqb_spec (x1 + inc * k) (x1 + inc * n)) as [|_]; [nia|].
  pose proof (joff_range inc n m k ltac:(lia)) as (R1&R2&R3).
  set (j := joff inc n m k) in *.
  destruct ((2 * m * (k + 1) - n - 2 * n * j <? 0) || ((inc <? 0) && (2 * m * (k + 1) - n - 2 * n * j <=? 0))) eqn:E.
  - assert (joff inc n m (k+1) = j) as ->.
    { symmetry. apply joff_unique; [lia|nia|intros ?; nia|intros ?; nia]. }
    f_equal. f_equal; nia.
  - assert (joff inc n m (k+1) = j + 1) as ->.
    { symmetry. apply joff_unique; [lia|nia|intros ?; nia|intros ?; nia]. }
    f_equal. f_equal; nia.
Qed.
Lemma bstate_end : get_next_point (bstate n) = None.
Proof.
  unfold get_next_point, bstate. cbn [bX bX2].
  destruct (Z.eqb_spec (x1 + inc * n) (x1 + inc * n)); [done|lia].
Qed.
Lemma line_loop_spec c : forall k, 0 <= k -> k + Z.of_nat c = n ->
  line_loop (S c) (bstate k) =
    Some ((fun i => get_current_point (bstate (k + Z.of_nat i))) <$> seq 0 (S c)).
Proof.
  induction c as [|c IH]; intros k Hk Hc.
  - assert (k = n) as -> by lia. cbn [line_loop]. rewrite bstate_end. simpl. by rewrite Z.add_0_r.
  - cbn [line_loop]. rewrite bstate_next by lia. cbn [line_loop] in IH. rewrite (IH (k+1)) by lia.
    change (seq 0 (S (S c))) with (0%nat :: seq 1 (S c)). rewrite fmap_cons.
    rewrite Z.add_0_r. f_equal. f_equal.
    rewrite <- (fmap_S_seq 0 (S c)). rewrite <- list_fmap_compose.
    apply list_fmap_ext. intros i a _. simpl. f_equal. f_equal. lia.
Qed.
End line.

Section top.
Variables (p1x p1y p2x p2y : Z).
Let dx := p2x - p1x.
Let dy := p2y - p1y.
Definition tn := Z.max (Z.abs dx) (Z.abs dy).
Definition tm := Z.min (Z.abs dx) (Z.abs dy).
Definition tusingY := Z.abs dy >? Z.abs dx.
Definition tflip := dx * dy <? 0.
Definition tinc := if (if tusingY then dy else dx) >? 0 then 1 else -1.
Definition tx1 := if tusingY then p1y else p1x.
Definition ty1 := let y := if tusingY then p1x else p1y in if tflip then - y else y.

Lemma tinc_pm : tinc = 1 \/ tinc = -1.
Proof. unfold tinc. destruct (_ >? _); auto. Qed.
Lemma tm_range : 0 <= tm <= tn.
Proof. unfold tm, tn. lia. Qed.

Lemma top_params : get_bresenham_parameters p1x p1y p2x p2y =
  bstate tx1 ty1 tinc tn tm tusingY tflip 0.
Proof.
  unfold get_bresenham_parameters, bstate.
  fold dx dy. fold tusingY tflip.
  assert (tn = 0 \/ 0 < tn) as Hn by (unfold tn; lia).
  assert ((if tn =? 0 then 0 else joff tinc tn tm 0) = 0) as ->.
  { destruct (Z.eqb_spec tn 0); [done|]. symmetry. apply joff_unique; lia. }
  assert ((if tusingY then dy else dx) = tinc * tn) as HX.
  { unfold tinc, tn, tusingY. destruct (Z.gtb_spec (Z.abs dy) (Z.abs dx)) as [E|E].
    - destruct (Z.gtb_spec dy 0); lia.
    - destruct (Z.gtb_spec dx 0); lia. }
  assert ((if tflip then - (if tusingY then dx else dy) else (if tusingY then dx else dy)) = tinc * tm) as HY.
  { unfold tinc, tm, tusingY, tflip. destruct (Z.gtb_spec (Z.abs dy) (Z.abs dx)) as [E|E].
    - destruct (Z.gtb_spec dy 0), (Z.ltb_spec (dx*dy) 0); nia.
    - destruct (Z.gtb_spec dx 0), (Z.ltb_spec (dx*dy) 0); nia. }
  assert (forall a b, (if (b >? a) then 1 else -1) = (if (b - a >? 0) then 1 else -1)) as Hgt.
  { intros a b. destruct (Z.gtb_spec b a), (Z.gtb_spec (b - a) 0); lia. }
  unfold tx1, ty1.
  destruct tusingY eqn:EU, tflip eqn:EF; cbv beta iota zeta; rewrite Hgt; fold dx dy;
    unfold tinc in *; rewrite EU in *;
    (destruct (Z.gtb_spec dy 0) as [Hd|Hd] || idtac); (destruct (Z.gtb_spec dx 0) as [Hd2|Hd2] || idtac);
    f_equal; unfold dx, dy in *; nia.
Qed.

(** The k-th point. *)
Definition tpoint (k : Z) : Z * Z := get_current_point (bstate tx1 ty1 tinc tn tm tusingY tflip k).

Lemma line_points : bresenham_line p1x p1y p2x p2y =
  Some ((fun i => tpoint (Z.of_nat i)) <$> seq 0 (S (Z.to_nat tn))).
Proof.
  unfold bresenham_line. rewrite top_params. fold dx dy. fold tn.
  rewrite (line_loop_spec tx1 ty1 tinc tn tm tusingY tflip tinc_pm tm_range); [done|lia|].
  pose proof tm_range. lia.
Qed.

Definition tj (k : Z) : Z := if tn =? 0 then 0 else joff tinc tn tm k.
Definition sgn_minor : Z := if tflip then - tinc else tinc.
Lemma tpoint_eq k : tpoint k =
  if tusingY then (p1x + sgn_minor * tj k, p1y + tinc * k) else (p1x + tinc * k, p1y + sgn_minor * tj k).
Proof.
  unfold tpoint, get_current_point, bstate. cbn [bFlip bUsingY bX bY]. fold (tj k).
  unfold tx1, ty1, sgn_minor. destruct tusingY, tflip; f_equal; lia.
Qed.
Lemma tminor : (if tusingY then dx else dy) = sgn_minor * tm.
Proof.
  unfold sgn_minor, tinc, tm, tusingY, tflip. destruct (Z.gtb_spec (Z.abs dy) (Z.abs dx)) as [E|E].
  - destruct (Z.gtb_spec dy 0), (Z.ltb_spec (dx*dy) 0); nia.
  - destruct (Z.gtb_spec dx 0), (Z.ltb_spec (dx*dy) 0); nia.
Qed.
Lemma tmajor : (if tusingY then dy else dx) = tinc * tn.
Proof.
  unfold tinc, tn, tusingY. destruct (Z.gtb_spec (Z.abs dy) (Z.abs dx)) as [E|E].
  - destruct (Z.gtb_spec dy 0); lia.
  - destruct (Z.gtb_spec dx 0); lia.
Qed.
Lemma tj_bound k : 0 <= k <= tn -> - tn <= 2 * tm * k - 2 * tn * tj k <= tn.
Proof.
  intros Hk. unfold tj. destruct (Z.eqb_spec tn 0) as [E|E].
  - pose proof tm_range. assert (tm = 0) by lia. nia.
  - apply joff_range. lia.
Qed.
Lemma tj_step k : 0 <= k < tn -> tj k <= tj (k+1) <= tj k + 1.
Proof.
  intros Hk. unfold tj. destruct (Z.eqb_spec tn 0) as [E|E]; [lia|].
  pose proof (joff_range tinc tn tm k ltac:(lia)) as (R1&R2&R3).
  pose proof (joff_range tinc tn tm (k+1) ltac:(lia)) as (S1&S2&S3).
  pose proof tm_range as Hm.
  set (a := joff tinc tn tm k) in *. set (b := joff tinc tn tm (k+1)) in *.
  destruct tinc_pm as [Ei|Ei].
  - specialize (R2 ltac:(lia)). specialize (S2 ltac:(lia)). split; nia.
  - specialize (R3 ltac:(lia)). specialize (S3 ltac:(lia)). split; nia.
Qed.
Lemma tj_0 : tj 0 = 0.
Proof. unfold tj. destruct (Z.eqb_spec tn 0); [done|]. pose proof tm_range. symmetry. apply joff_unique; lia. Qed.
Lemma tj_n : tj tn = tm.
Proof.
  pose proof tm_range. unfold tj. destruct (Z.eqb_spec tn 0); [lia|].
  symmetry. apply joff_unique; nia.
Qed.
Lemma tpoint_first : tpoint 0 = (p1x, p1y).
Proof. rewrite tpoint_eq, tj_0. destruct tusingY; f_equal; lia. Qed.
Lemma tpoint_last : tpoint tn = (p2x, p2y).
Proof.
  rewrite tpoint_eq, tj_n. pose proof tminor as H1. pose proof tmajor as H2. unfold dx, dy in *.
  destruct tusingY; f_equal; lia.
Qed.
Lemma sgn_minor_pm : sgn_minor = 1 \/ sgn_minor = -1.
Proof. unfold sgn_minor. destruct tinc_pm, tflip; lia. Qed.
Lemma tpoint_close k x y : 0 <= k <= tn -> tpoint k = (x, y) ->
  2 * Z.abs (tn * (x - p1x) - k * dx) <= tn /\ 2 * Z.abs (tn * (y - p1y) - k * dy) <= tn.
Proof.
  intros Hk. rewrite tpoint_eq. pose proof tminor as H1. pose proof tmajor as H2.
  pose proof (tj_bound k Hk) as Hb. pose proof tm_range. set (j := tj k) in *.
  destruct tusingY; intros [= <- <-]; rewrite H1, H2.
  - replace (tn * (p1x + sgn_minor * j - p1x) - k * (sgn_minor * tm)) with (sgn_minor * (tn * j - k * tm)) by ring.
    replace (tn * (p1y + tinc * k - p1y) - k * (tinc * tn)) with 0 by ring.
    destruct sgn_minor_pm as [-> | ->]; lia.
  - replace (tn * (p1y + sgn_minor * j - p1y) - k * (sgn_minor * tm)) with (sgn_minor * (tn * j - k * tm)) by ring.
    replace (tn * (p1x + tinc * k - p1x) - k * (tinc * tn)) with 0 by ring.
    destruct sgn_minor_pm as [-> | ->]; lia.
Qed.
Lemma tpoint_adj k : 0 <= k < tn ->
  Z.max (Z.abs (fst (tpoint (k+1)) - fst (tpoint k))) (Z.abs (snd (tpoint (k+1)) - snd (tpoint k))) = 1.
Proof.
  intros Hk. rewrite !tpoint_eq. pose proof (tj_step k Hk) as Hs.
  set (j := tj k) in *. set (j' := tj (k+1)) in *.
  destruct tusingY; cbn [fst snd]; destruct sgn_minor_pm as [-> | ->], tinc_pm as [-> | ->]; lia.
Qed.
End top.

Lemma t_swap p1x p1y p2x p2y k : 0 <= k <= tn p1x p1y p2x p2y ->
  tpoint p2x p2y p1x p1y k = tpoint p1x p1y p2x p2y (tn p1x p1y p2x p2y - k).
Proof.
  intros Hk. rewrite !tpoint_eq.
  assert (tn p2x p2y p1x p1y = tn p1x p1y p2x p2y) as En by (unfold tn; lia).
  assert (tm p2x p2y p1x p1y = tm p1x p1y p2x p2y) as Em by (unfold tm; lia).
  assert (tusingY p2x p2y p1x p1y = tusingY p1x p1y p2x p2y) as EU by (unfold tusingY; lia).
  pose proof (tmajor p1x p1y p2x p2y) as M1. pose proof (tmajor p2x p2y p1x p1y) as M2.
  pose proof (tminor p1x p1y p2x p2y) as N1. pose proof (tminor p2x p2y p1x p1y) as N2.
  pose proof (tm_range p1x p1y p2x p2y) as Hm.
  rewrite En, Em, EU in *.
  set (n := tn p1x p1y p2x p2y) in *. set (m := tm p1x p1y p2x p2y) in *.
  destruct (Z.eqb_spec n 0) as [E0|E0].
  { unfold tj. rewrite En. fold n. destruct (Z.eqb_spec n 0); [|done].
    assert (k = 0) as -> by lia. assert (m = 0) as Hm0 by lia. rewrite E0, Hm0 in *.
    destruct (tusingY p1x p1y p2x p2y); f_equal; lia. }
  assert (tinc p2x p2y p1x p1y = - tinc p1x p1y p2x p2y) as EI.
  { destruct (tusingY p1x p1y p2x p2y); nia. }
  assert (tj p2x p2y p1x p1y k = m - tj p1x p1y p2x p2y (n - k)) as EJ.
  { unfold tj. rewrite En, Em, EI. fold n m. destruct (Z.eqb_spec n 0); [done|].
    pose proof (joff_range (tinc p1x p1y p2x p2y) n m (n-k) ltac:(lia)) as (R1&R2&R3).
    set (j := joff _ _ _ (n-k)) in *.
    symmetry. apply joff_unique; [lia| |intros ?|intros ?].
    - nia.
    - specialize (R3 ltac:(lia)). nia.
    - specialize (R2 ltac:(destruct (tinc_pm p1x p1y p2x p2y); lia)). nia. }
  assert (sgn_minor p2x p2y p1x p1y = - sgn_minor p1x p1y p2x p2y) as ES.
  { unfold sgn_minor. rewrite EI. assert (tflip p2x p2y p1x p1y = tflip p1x p1y p2x p2y) as ->.
    { unfold tflip. f_equal. ring. }
    destruct (tflip _ _ _ _); lia. }
  rewrite EJ, ES, EI.
  destruct (tusingY p1x p1y p2x p2y); f_equal; nia.
Qed.

(** The whole claim about one call. *)
Lemma line_spec p1x p1y p2x p2y :
  let n := Z.max (Z.abs (p2x - p1x)) (Z.abs (p2y - p1y)) in
  exists l, bresenham_line p1x p1y p2x p2y = Some l /\
    Z.of_nat (length l) = n + 1 /\
    head l = Some (p1x, p1y) /\ last l = Some (p2x, p2y) /\
    (forall i a b, l !! i = Some a -> l !! S i = Some b ->
       Z.max (Z.abs (b.1 - a.1)) (Z.abs (b.2 - a.2)) = 1) /\
    (forall i a, l !! i = Some a ->
       2 * Z.abs (n * (a.1 - p1x) - Z.of_nat i * (p2x - p1x)) <= n /\
       2 * Z.abs (n * (a.2 - p1y) - Z.of_nat i * (p2y - p1y)) <= n).
Proof.
  intros n. rewrite line_points. eexists; split; [done|].
  assert (0 <= n) as Hn by (unfold n; lia).
  change (tn p1x p1y p2x p2y) with n.
  assert (forall i a, ((fun i => tpoint p1x p1y p2x p2y (Z.of_nat i)) <$> seq 0 (S (Z.to_nat n))) !! i = Some a ->
    a = tpoint p1x p1y p2x p2y (Z.of_nat i) /\ Z.of_nat i <= n) as Hl.
  { intros i a Ha. apply list_lookup_fmap_inv in Ha as (j&->&Hj). apply lookup_seq in Hj as [-> Hj].
    split; [f_equal; lia|lia]. }
  split_and!.
  - rewrite fmap_length, seq_length. lia.
  - simpl. f_equal. apply tpoint_first.
  - rewrite last_lookup, fmap_length, seq_length, list_lookup_fmap, lookup_seq_lt by lia. simpl. f_equal.
    rewrite Z2Nat.id by lia. apply tpoint_last.
  - intros i a b Ha Hb. apply Hl in Ha as [-> Ha]. apply Hl in Hb as [-> Hb].
    replace (Z.of_nat (S i)) with (Z.of_nat i + 1) in * by lia.
    apply tpoint_adj. change (tn p1x p1y p2x p2y) with n. lia.
  - intros i [x y] Ha. apply Hl in Ha as [Ha Hi].
    apply (tpoint_close p1x p1y p2x p2y (Z.of_nat i) x y); [|done].
    change (tn p1x p1y p2x p2y) with n. lia.
Qed.

Lemma line_reverse p1x p1y p2x p2y l : bresenham_line p1x p1y p2x p2y = Some l ->
  bresenham_line p2x p2y p1x p1y = Some (reverse l).
Proof.
  rewrite !line_points. intros Hl.
  match type of Hl with Some ?x = _ => assert (l = x) as -> by congruence end. clear Hl. f_equal.
  assert (tn p2x p2y p1x p1y = tn p1x p1y p2x p2y) as -> by (unfold tn; lia).
  set (n := tn p1x p1y p2x p2y).
  assert (0 <= n) as Hn by (unfold n, tn; lia).
  apply list_eq. intros i. destruct (decide (i < S (Z.to_nat n))%nat) as [Hi|Hi].
  - rewrite reverse_lookup by (rewrite fmap_length, seq_length; done).
    rewrite fmap_length, seq_length. rewrite !list_lookup_fmap.
    rewrite !lookup_seq_lt by lia. simpl. f_equal.
    rewrite t_swap by (fold n; lia). f_equal. fold n. lia.
  - rewrite !lookup_ge_None_2; [done| |]; rewrite ?reverse_length, fmap_length, seq_length; lia.
Qed.
