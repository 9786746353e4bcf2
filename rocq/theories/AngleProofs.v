From Coq Require Import Lia Lqa.
From Verif Require Import Base AngleModel.
Local Open Scope Q_scope.

Lemma rem_neg a b : (a <= 0)%Z -> (0 < b)%Z -> (- b < Z.rem a b <= 0)%Z.
Proof.
  intros Ha Hb. pose proof (Z.rem_opp_l a b ltac:(lia)). pose proof (Z.rem_bound_pos (- a) b ltac:(lia) ltac:(lia)). lia.
Qed.

Lemma normdisc_spec t n : (0 < n)%Z ->
  (0 <= NORMALIZEDISCTHETA t n < n)%Z /\ (exists k, NORMALIZEDISCTHETA t n = t + k * n)%Z.
Proof.
  intros Hn. unfold NORMALIZEDISCTHETA. destruct (Z.geb_spec t 0).
  - rewrite Z.rem_mod_nonneg by lia. split; [apply Z.mod_pos_bound; lia|].
    exists (- (t / n))%Z. pose proof (Z.div_mod t n). lia.
  - pose proof (rem_neg t n ltac:(lia) ltac:(lia)) as Hr.
    rewrite Z.rem_mod_nonneg by lia. split; [apply Z.mod_pos_bound; lia|].
    pose proof (Z.quot_rem t n ltac:(lia)). pose proof (Z.div_mod (Z.rem t n + n) n ltac:(lia)).
    exists (1 - (Z.quot t n) - ((Z.rem t n + n) / n))%Z. lia.
Qed.

Lemma Qltb_spec x y : reflect (x < y) (Qltb x y).
Proof.
  unfold Qltb. destruct (Qle_bool y x) eqn:E; constructor.
  - apply Qle_bool_iff in E. lra.
  - assert (~ y <= x) by (rewrite <- Qle_bool_iff; congruence). lra.
Qed.
Lemma Qleb_spec x y : reflect (x <= y) (Qle_bool x y).
Proof.
  destruct (Qle_bool x y) eqn:E; constructor.
  - by apply Qle_bool_iff in E.
  - rewrite <- Qle_bool_iff; congruence.
Qed.
Lemma Qeqb_spec x y : reflect (x == y) (Qeq_bool x y).
Proof.
  destruct (Qeq_bool x y) eqn:E; constructor.
  - by apply Qeq_bool_iff in E.
  - rewrite <- Qeq_bool_iff; congruence.
Qed.

Lemma Qtrunc_pos x : 0 <= x -> inject_Z (Qtrunc x) <= x < inject_Z (Qtrunc x) + 1.
Proof.
  intros H. unfold Qtrunc. destruct x as [a b]. unfold Qle, Qlt, inject_Z, Qplus in *. simpl in *.
  rewrite Z.quot_div_nonneg by lia.
  pose proof (Z.div_mod a (Z.pos b) ltac:(lia)). pose proof (Z.mod_pos_bound a (Z.pos b) ltac:(lia)).
  nia.
Qed.
Lemma Qtrunc_neg x : x <= 0 -> inject_Z (Qtrunc x) - 1 < x <= inject_Z (Qtrunc x).
Proof.
  intros H. unfold Qtrunc. destruct x as [a b]. unfold Qle, Qlt, inject_Z, Qminus, Qopp, Qplus in *. simpl in *.
  pose proof (Z.quot_rem a (Z.pos b) ltac:(lia)). pose proof (rem_neg a (Z.pos b) ltac:(lia) ltac:(lia)).
  nia.
Qed.
Lemma inject_Z_lt_inv a b : inject_Z a < inject_Z b -> (a < b)%Z.
Proof. by rewrite <- Zlt_Qlt. Qed.
Lemma Qtrunc_pos_unique x k : 0 <= x -> inject_Z k <= x < inject_Z k + 1 -> Qtrunc x = k.
Proof.
  intros Hx Hk. pose proof (Qtrunc_pos x Hx).
  assert (inject_Z k < inject_Z (Qtrunc x + 1)) as H1%inject_Z_lt_inv by (rewrite inject_Z_plus; change (inject_Z 1) with 1; lra).
  assert (inject_Z (Qtrunc x) < inject_Z (k + 1)) as H2%inject_Z_lt_inv by (rewrite inject_Z_plus; change (inject_Z 1) with 1; lra).
  lia.
Qed.
Lemma Qtrunc_neg_unique x k : x <= 0 -> inject_Z k - 1 < x <= inject_Z k -> Qtrunc x = k.
Proof.
  intros Hx Hk. pose proof (Qtrunc_neg x Hx).
  assert (inject_Z k < inject_Z (Qtrunc x + 1)) as H1%inject_Z_lt_inv by (rewrite inject_Z_plus; change (inject_Z 1) with 1; lra).
  assert (inject_Z (Qtrunc x) < inject_Z (k + 1)) as H2%inject_Z_lt_inv by (rewrite inject_Z_plus; change (inject_Z 1) with 1; lra).
  lia.
Qed.

Section angles.
Context (P : Q) (HP : 0 < P).

Lemma trunc_mult a : 2 * P < Qabs a ->
  let r := a - inject_Z (Qtrunc (a / (2 * P))) * 2 * P in (0 < a -> 0 <= r < 2 * P) /\ (a < 0 -> - (2 * P) < r <= 0).
Proof.
  intros H r. set (q := a / (2 * P)) in *.
  assert (a == q * (2 * P)) as Ha by (unfold q; field; lra).
  set (k := inject_Z (Qtrunc q)) in *.
  assert (r == (q - k) * (2 * P)) as Hr by (unfold r; rewrite Ha at 1; ring).
  split; intros Hs; rewrite Hr.
  - assert (0 <= q). { unfold q. apply Qle_shift_div_l; lra. }
    pose proof (Qtrunc_pos q ltac:(done)). fold k in H1. split; nra.
  - assert (q <= 0). { unfold q. apply Qle_shift_div_r; lra. }
    pose proof (Qtrunc_neg q ltac:(done)). fold k in H1. split; nra.
Qed.

Lemma norm_spec a : 0 <= normalizeAngle P a <= 2 * P /\
  (exists k : Z, normalizeAngle P a == a + inject_Z k * (2 * P)) /\
  (normalizeAngle P a == 2 * P <-> a == 2 * P).
Proof.
  unfold normalizeAngle. destruct (Qltb_spec (2 * P) (Qabs a)) as [H|H].
  - pose proof (trunc_mult a H) as [H1 H2]. simpl in *.
    set (t := Qtrunc (a / (2 * P))) in *.
    assert (0 < a \/ a < 0) as [Ha|Ha].
    { destruct (Qlt_le_dec 0 a); [by left|]. right. rewrite Qabs_neg in H by done. lra. }
    + specialize (H1 Ha). rewrite Qabs_pos in H by lra. destruct (Qltb_spec (a - inject_Z t * 2 * P) 0); [lra|].
      split; [lra|]. split; [|split; lra].
      exists (- t)%Z. rewrite inject_Z_opp. ring.
    + specialize (H2 Ha). rewrite Qabs_neg in H by lra. destruct (Qltb_spec (a - inject_Z t * 2 * P) 0).
      * split; [lra|]. split; [|split; lra].
        exists (1 - t)%Z. unfold Z.sub. rewrite inject_Z_plus, inject_Z_opp. change (inject_Z 1) with 1. ring.
      * split; [lra|]. split; [|split; lra].
        exists (- t)%Z. rewrite inject_Z_opp. ring.
  - apply Qnot_lt_le in H. apply Qabs_Qle_condition in H.
    destruct (Qltb_spec a 0).
    + split; [lra|]. split; [|split; lra]. exists 1%Z. change (inject_Z 1) with 1. ring.
    + split; [lra|]. split; [|split; lra]. exists 0%Z. change (inject_Z 0) with 0. ring.
Qed.

(** Uniqueness of the representative. *)
Lemma rep_unique x y k : 0 <= x < 2 * P -> 0 <= y < 2 * P -> x == y + inject_Z k * (2 * P) -> x == y.
Proof.
  intros Hx Hy He. assert (k = 0)%Z as ->.
  { destruct (Z.lt_trichotomy k 0) as [Hk|[Hk|Hk]]; [|done|].
    - assert (inject_Z k <= -1) by (change (-1) with (inject_Z (-1)); rewrite <- Zle_Qle; lia). nra.
    - assert (1 <= inject_Z k) by (change 1 with (inject_Z 1); rewrite <- Zle_Qle; lia). nra. }
  change (inject_Z 0) with 0 in He. lra.
Qed.

Lemma disc_bin N (HN : (0 < N)%Z) f :
  let d := ContTheta2Disc P f N in
  let bin := 2 * P / inject_Z N in
  (0 <= d <= N)%Z /\ (d = N <-> f == 2 * P - bin / 2) /\
  (exists k : Z, inject_Z d * bin - bin / 2 <= f + inject_Z k * (2 * P) < inject_Z d * bin + bin / 2).
Proof.
  intros d bin. unfold ContTheta2Disc in d. fold bin in d.
  assert (0 < inject_Z N) as HNq by (change 0 with (inject_Z 0); rewrite <- Zlt_Qlt; lia).
  pose proof (norm_spec (f + bin / 2)) as (Hr&(k&Hk)&He).
  set (r := normalizeAngle P (f + bin / 2)) in *.
  set (x := r / (2 * P) * inject_Z N) in *.
  assert (0 < bin) as Hb. { unfold bin. apply Qlt_shift_div_l; lra. }
  assert (r == x * bin) as Hrx. { unfold x, bin. field. split; lra. }
  assert (bin * inject_Z N == 2 * P) as HbN. { unfold bin. field. lra. }
  assert (0 <= x) by nra.
  pose proof (Qtrunc_pos x ltac:(done)) as Ht. fold d in Ht.
  assert (x <= inject_Z N) by nra.
  assert (0 <= d <= N)%Z as Hd.
  { split.
    - assert (inject_Z 0 < inject_Z (d + 1)) as H1%inject_Z_lt_inv by (rewrite inject_Z_plus; change (inject_Z 1) with 1; change (inject_Z 0) with 0; lra). lia.
    - assert (inject_Z d < inject_Z (N + 1)) as H1%inject_Z_lt_inv by (rewrite inject_Z_plus; change (inject_Z 1) with 1; lra). lia. }
  split; [done|]. split.
  - split.
    + intros ->. assert (x == inject_Z N) by lra. assert (r == 2 * P) as Hr2 by nra. apply He in Hr2. lra.
    + intros Hf. assert (f + bin / 2 == 2 * P) as Hr2 by lra. apply He in Hr2.
      assert (x == inject_Z N) as Hx by nra. unfold d. apply Qtrunc_pos_unique; [done|]. lra.
  - exists k. assert (f + inject_Z k * (2 * P) == x * bin - bin / 2) as E by (rewrite <- Hrx, Hk; ring).
    rewrite E.
    assert (inject_Z d * bin <= x * bin) by (apply Qmult_le_compat_r; lra).
    assert (x * bin < (inject_Z d + 1) * bin) by (apply Qmult_lt_compat_r; lra).
    rewrite Qmult_plus_distr_l, Qmult_1_l in H2. clear - H1 H2. clearbody bin d x.
    generalize dependent (inject_Z d * bin). generalize dependent (x * bin). intros.
    assert (bin / 2 == bin * (1#2)) as -> by (field). split; lra.
Qed.

Lemma disc_roundtrip N (HN : (0 < N)%Z) n : (0 <= n < N)%Z ->
  ContTheta2Disc P (DiscTheta2Cont P n N) N = n.
Proof.
  intros Hn. pose proof (disc_bin N HN (DiscTheta2Cont P n N)) as (Hd&Hdn&k&Hk).
  set (d := ContTheta2Disc P (DiscTheta2Cont P n N) N) in *.
  unfold DiscTheta2Cont in *. set (bin := 2 * P / inject_Z N) in *.
  assert (0 < inject_Z N) as HNq by (change 0 with (inject_Z 0); rewrite <- Zlt_Qlt; lia).
  assert (0 < bin) as Hb. { unfold bin. apply Qlt_shift_div_l; lra. }
  assert (bin * inject_Z N == 2 * P) as HbN. { unfold bin. field. lra. }
  assert (bin == 2 * (bin / 2)) as Hh by field. set (h := bin / 2) in *.
  assert (d <> N) as HdN.
  { intros Hx. apply Hdn in Hx. assert (inject_Z n <= inject_Z (N - 1)) by (rewrite <- Zle_Qle; lia).
    unfold Z.sub in H. rewrite inject_Z_plus in H. change (inject_Z (-(1))) with (-1) in H. nra. }
  assert (2 * P == bin * inject_Z N) as E by lra. rewrite E in Hk.
  assert (inject_Z (d - 1) < inject_Z (n + k * N) /\ inject_Z (n + k * N) < inject_Z (d + 1)) as [H1%inject_Z_lt_inv H2%inject_Z_lt_inv].
  { unfold Z.sub. rewrite !inject_Z_plus, inject_Z_mult. change (inject_Z 1) with 1. change (inject_Z (-(1))) with (-1).
    set (dq := inject_Z d) in *. set (nq := inject_Z n) in *. set (kq := inject_Z k) in *. set (Nq := inject_Z N) in *.
    assert (nq * bin + kq * (bin * Nq) == (nq + kq * Nq) * bin) as E2 by ring. rewrite E2 in Hk. split; nra. }
  assert (k = 0)%Z by nia. nia.
Qed.

Lemma mindiff_spec a1 a2 :
  let d := computeMinUnsignedAngleDiff P a1 a2 in
  0 <= d <= P /\ (exists k : Z, d == Qabs (a1 - a2 + inject_Z k * (2 * P))) /\
  (forall k : Z, d <= Qabs (a1 - a2 + inject_Z k * (2 * P))).
Proof.
  intros d. unfold computeMinUnsignedAngleDiff in d.
  pose proof (norm_spec a1) as (H1&(k1&E1)&_). pose proof (norm_spec a2) as (H2&(k2&E2)&_).
  set (n1 := normalizeAngle P a1) in *. set (n2 := normalizeAngle P a2) in *.
  assert (0 <= d <= P /\ exists k, d == Qabs (n1 - n2 + inject_Z k * (2 * P))) as [Hd [k Hk]].
  { unfold d. assert (Qabs (n1 - n2) <= 2 * P) as Hle by (apply Qabs_Qle_condition; lra).
    destruct (Qltb_spec P (Qabs (n1 - n2))) as [Hgt|Hngt].
    - split; [rewrite Qabs_neg by lra; lra|].
      destruct (Qlt_le_dec 0 (n1 - n2)).
      + exists (-1)%Z. change (inject_Z (-1)) with (-1). apply Qabs_wd. rewrite Qabs_pos by lra. ring.
      + exists 1%Z. change (inject_Z 1) with 1. rewrite <- Qabs_opp. apply Qabs_wd. rewrite Qabs_neg by lra. ring.
    - split; [pose proof (Qabs_nonneg (n1 - n2)); lra|]. exists 0%Z. apply Qabs_wd. change (inject_Z 0) with 0. ring. }
  split; [done|]. split.
  - exists (k1 - k2 + k)%Z. rewrite Hk. apply Qabs_wd. rewrite E1, E2.
    unfold Z.sub. rewrite !inject_Z_plus, inject_Z_opp. ring.
  - intros j. set (x := a1 - a2 + inject_Z j * (2 * P)).
    set (y := n1 - n2 + inject_Z k * (2 * P)) in *.
    assert (exists i : Z, x == y + inject_Z i * (2 * P)) as [i Hi].
    { exists (j - (k1 - k2 + k))%Z. unfold x, y. rewrite E1, E2. unfold Z.sub. rewrite !inject_Z_plus, !inject_Z_opp, !inject_Z_plus, inject_Z_opp. ring. }
    assert (- P <= y <= P) as Hy. { apply Qabs_Qle_condition. lra. }
    rewrite Hk, Hi. apply Qabs_Qle_condition.
    assert (i = 0 \/ 1 <= i \/ i <= -1)%Z as [->|[Hz|Hz]] by lia.
    + change (inject_Z 0) with 0. setoid_replace (y + 0 * (2 * P)) with y by ring. split.
      * pose proof (Qle_Qabs (- y)). rewrite Qabs_opp in H. lra.
      * apply Qle_Qabs.
    + assert (1 <= inject_Z i) by (change 1 with (inject_Z 1); rewrite <- Zle_Qle; lia).
      rewrite (Qabs_pos (y + inject_Z i * (2 * P))) by nra. split; nra.
    + assert (inject_Z i <= -1) by (change (-1) with (inject_Z (-1)); rewrite <- Zle_Qle; lia).
      rewrite (Qabs_neg (y + inject_Z i * (2 * P))) by nra. split; nra.
Qed.
End angles.

Section cells.
Context (c : Q) (Hc : 0 < c).

Lemma cont2disc_spec x :
  inject_Z (CONTXY2DISC x c) * c <= x <= inject_Z (CONTXY2DISC x c + 1) * c /\
  (0 <= x \/ (forall k : Z, ~ x == inject_Z k * c) -> x < inject_Z (CONTXY2DISC x c + 1) * c).
Proof.
  rewrite inject_Z_plus. change (inject_Z 1) with 1. unfold CONTXY2DISC. set (q := x / c).
  assert (x == q * c) as Hx by (unfold q; field; lra).
  destruct (Qleb_spec 0 x) as [H|H].
  - assert (0 <= q) by (unfold q; apply Qle_shift_div_l; lra). pose proof (Qtrunc_pos q ltac:(done)). split; [split|intros _]; nra.
  - assert (q <= 0) by (unfold q; apply Qle_shift_div_r; lra). pose proof (Qtrunc_neg q ltac:(done)) as Hq.
    set (t := Qtrunc q) in *. unfold Z.sub. rewrite inject_Z_plus. change (inject_Z (-(1))) with (-1).
    split; [split; nra|]. intros [?|Hk]; [lra|]. specialize (Hk t).
    assert (q * c <= inject_Z t * c) as Hle by nra.
    assert (~ q * c == inject_Z t * c) as Hne by (intros E; apply Hk; rewrite Hx; exact E).
    setoid_replace ((inject_Z t + -1 + 1) * c) with (inject_Z t * c) by ring. lra.
Qed.

Lemma disc_cont_roundtrip d : CONTXY2DISC (DISCXY2CONT d c) c = d.
Proof.
  pose proof (cont2disc_spec (DISCXY2CONT d c)) as ([H1 H2]&_).
  set (e := CONTXY2DISC (DISCXY2CONT d c) c) in *. unfold DISCXY2CONT in *.
  rewrite inject_Z_plus in H2. change (inject_Z 1) with 1 in H2.
  assert (c == 2 * (c / 2)) as Hh by field. set (h := c / 2) in *.
  assert (inject_Z e < inject_Z (d + 1) /\ inject_Z d < inject_Z (e + 1)) as [A%inject_Z_lt_inv B%inject_Z_lt_inv].
  { rewrite !inject_Z_plus. change (inject_Z 1) with 1. split; nra. }
  lia.
Qed.
End cells.
