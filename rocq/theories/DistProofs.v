(** Proofs about the distance transform. *)
From Coq Require Import ZifyBool Sorting.Sorted.
From Verif Require Import Base DistModel DistSpec.
Local Open Scope Z_scope.

Lemma rne_spec n : 0 <= n ->
  let s := 2 ^ (Z.log2 n - 23) in Z.log2 n - 23 > 0 -> 0 < s /\ 8388608 * s <= n < 16777216 * s /\ exists q, rne n = q * s /\ 2 * Z.abs (q * s - n) <= s /\ 8388608 <= q <= 16777216.
Proof.
  intros Hn s He. assert (0 < s) as Hs by (apply Z.pow_pos_nonneg; lia).
  assert (0 < n) as Hn0. { destruct (decide (n = 0)) as [->|]; [cbn in He; lia|lia]. }
  destruct (Z.log2_spec n Hn0) as [H1 H2].
  replace (2 ^ Z.log2 n) with (8388608 * s) in H1 by (unfold s; change 8388608 with (2 ^ 23); rewrite <- Z.pow_add_r by lia; f_equal; lia).
  replace (2 ^ Z.succ (Z.log2 n)) with (16777216 * s) in H2 by (unfold s; change 16777216 with (2 ^ 24); rewrite <- Z.pow_add_r by lia; f_equal; lia).
  split_and!; try done. unfold rne. fold s. replace (Z.log2 n - 23 <=? 0) with false by lia.
  pose proof (Z.div_mod n s ltac:(lia)) as Hdm. pose proof (Z.mod_pos_bound n s Hs) as Hmb. set (q := n / s) in *. set (r := n mod s) in *.
  assert (8388608 <= q < 16777216) by nia.
  destruct ((s <? 2 * r) || ((2 * r =? s) && Z.odd q)) eqn:E; eexists; (split; [reflexivity|]); split; [nia|lia| |lia].
  assert (2 * r <= s). { destruct (s <? 2 * r) eqn:E2; [done|lia]. } replace (q * s - n) with (- r) by lia. lia.
Qed.
Lemma rne_small n : Z.log2 n - 23 <= 0 -> rne n = n.
Proof. intros H. unfold rne. by replace (Z.log2 n - 23 <=? 0) with true by lia. Qed.
Lemma rne_err n : 0 <= n -> 16777215 * n <= 16777216 * rne n <= 16777217 * n.
Proof.
  intros Hn. destruct (decide (Z.log2 n - 23 <= 0)) as [He|He]; [rewrite rne_small by done; lia|].
  destruct (rne_spec n Hn ltac:(lia)) as (Hs&Hb&q&->&Hq&_). lia.
Qed.
Lemma rne_mono n m : 0 <= n <= m -> rne n <= rne m.
Proof.
  intros [Hn Hm]. pose proof (Z.log2_le_mono n m Hm) as Hl.
  destruct (decide (Z.log2 m - 23 <= 0)) as [Hem|Hem]; [rewrite !rne_small by lia; done|].
  destruct (rne_spec m ltac:(lia) ltac:(lia)) as (Hsm&Hbm&qm&Erm&Hqm&Hqm2).
  destruct (decide (Z.log2 n - 23 <= 0)) as [Hen|Hen].
  { rewrite (rne_small n) by done. rewrite Erm. assert (n < 2 ^ 24). { destruct (decide (n = 0)) as [->|]; [done|]. destruct (Z.log2_spec n ltac:(lia)) as [_ H]. eapply Z.lt_le_trans; [exact H|]. apply Z.pow_le_mono_r; lia. }
    assert (2 ^ 1 <= 2 ^ (Z.log2 m - 23)) by (apply Z.pow_le_mono_r; lia). change (2 ^ 24) with 16777216 in *. change (2 ^ 1) with 2 in *. nia. }
  destruct (rne_spec n ltac:(lia) ltac:(lia)) as (Hsn&Hbn&qn&Ern&Hqn&Hqn2).
  destruct (decide (Z.log2 n = Z.log2 m)) as [E|E].
  - unfold rne. rewrite E. replace (Z.log2 m - 23 <=? 0) with false by lia. set (s := 2 ^ (Z.log2 m - 23)) in *.
    pose proof (Z.div_mod n s ltac:(lia)) as Hdm. pose proof (Z.mod_pos_bound n s Hsm) as Hmb. pose proof (Z.div_mod m s ltac:(lia)) as Hdm'. pose proof (Z.mod_pos_bound m s Hsm) as Hmb'.
    pose proof (Z.div_le_mono n m s Hsm Hm) as Hd. apply Z.mul_le_mono_nonneg_r; [lia|].
    destruct (decide (n / s = m / s)) as [E2|E2].
    + rewrite E2 in *. assert (n mod s <= m mod s) by lia. destruct (Z.odd (m / s)).
      * rewrite !andb_true_r. destruct ((s <? 2 * (n mod s)) || (2 * (n mod s) =? s)) eqn:E3, ((s <? 2 * (m mod s)) || (2 * (m mod s) =? s)) eqn:E4; lia.
      * rewrite !andb_false_r, !orb_false_r. destruct (s <? 2 * (n mod s)) eqn:E3, (s <? 2 * (m mod s)) eqn:E4; lia.
    + destruct ((s <? 2 * (n mod s)) || _), ((s <? 2 * (m mod s)) || _); lia.
  - rewrite Ern, Erm. set (sn := 2 ^ (Z.log2 n - 23)) in *. set (sm := 2 ^ (Z.log2 m - 23)) in *.
    assert (2 * sn <= sm). { unfold sn, sm. change 2 with (2 ^ 1) at 1. rewrite <- Z.pow_add_r by lia. apply Z.pow_le_mono_r; lia. }
    nia.
Qed.
Lemma rne_int k : 0 <= k < 16777216 -> rne (k * fone) = k * fone.
Proof.
  intros Hk. destruct (decide (k = 0)) as [->|Hk0]; [done|]. assert (Z.log2 (k * fone) = Z.log2 k + 23) as El. { change fone with (2 ^ 23). rewrite Z.log2_mul_pow2 by lia. lia. }
  unfold rne. rewrite El. replace (Z.log2 k + 23 - 23) with (Z.log2 k) by lia. destruct (Z.log2 k <=? 0) eqn:E; [done|].
  assert (Z.log2 k < 24) by (apply Z.log2_lt_pow2; [lia|]; change (2 ^ 24) with 16777216; lia). set (s := 2 ^ Z.log2 k). assert (0 < s) by (apply Z.pow_pos_nonneg; lia).
  assert (exists z, k * fone = z * s) as [z Ez]. { exists (k * 2 ^ (23 - Z.log2 k)). unfold s. rewrite <- Z.mul_assoc, <- Z.pow_add_r by lia. f_equal. unfold fone. change 8388608 with (2 ^ 23). f_equal. lia. }
  rewrite Ez, Z.div_mul, Z.mod_mul by lia. replace (s <? 2 * 0) with false by lia. replace (2 * 0 =? s) with false by lia. done.
Qed.

Definition sel (b : bool) (v : Z * Z) : Z := if b then v.1 else v.2.
Definition hh (x : Z) : Z := if Z.even x then 1 else -1.
Definition prec (σ : Z) (c' c : Z * Z) : Prop := σ * (c'.1 - c.1) < 0 \/ c'.1 = c.1 /\ σ * hh c.1 * (c'.2 - c.2) < 0.
Definition bef (σ : Z) (t c : Z * Z) : Prop := t = c \/ prec σ t c.
Definition dirsof (one diag σ x : Z) : list (Z * Z * Z) := [(-σ, -1, diag); (-σ, 0, one); (-σ, 1, diag); (0, -(σ * hh x), one)].

Lemma hh_cases x : hh x = 1 /\ hh (x + 1) = -1 /\ hh (x - 1) = -1 \/ hh x = -1 /\ hh (x + 1) = 1 /\ hh (x - 1) = 1.
Proof. unfold hh. replace (x + 1) with (Z.succ x) by lia. replace (x - 1) with (Z.pred x) by lia. rewrite Z.even_succ, Z.even_pred, <- Z.negb_even. destruct (Z.even x); cbn; auto. Qed.

Section proofs.
Context (add : Z -> Z -> Z) (one diag maxd : Z) (grid : Z -> Z -> Z) (w h thr : Z) (U P M N : Z).
Context (Hone : 0 < one <= diag /\ diag <= 2 * one) (HU : 0 < M <= U /\ U <= P) (HN : 0 <= N).
Context (Hmono : forall c x y, 0 <= c -> 0 <= x <= y -> add c x <= add c y).
Context (Herr : forall x y, 0 <= x -> 0 <= y -> M * (x + y) <= U * add x y <= P * (x + y)).
Context (Hmax : forall c, inmap w h c -> one * Z.min w h <= maxd).
Context (HB : forall m v, 0 <= m <= N -> (m + 1) * one * M ^ (m + 1) <= U ^ (m + 1) * v -> v <= maxd -> m + 1 <= N).

Local Notation ch := (chamfer one diag).
Definition seed (b : bool) (c : Z * Z) : Prop := if b then isobs grid w h thr c else isnonfree grid w h thr c.

Lemma chamfer_step c t dx dy k : (dx = 0 /\ (dy = 1 \/ dy = -1) \/ dy = 0 /\ (dx = 1 \/ dx = -1)) /\ k = one \/ (dx = 1 \/ dx = -1) /\ (dy = 1 \/ dy = -1) /\ k = diag ->
  ch c t <= k + ch (c.1 + dx, c.2 + dy) t.
Proof.
  destruct c as [x y], t as [x0 y0]. unfold chamfer. cbn. intros H.
  replace (Z.abs (x + dx - x0)) with (Z.abs ((x - x0) + dx)) by lia. replace (Z.abs (y + dy - y0)) with (Z.abs ((y - y0) + dy)) by lia.
  set (p := x - x0). set (q := y - y0). clearbody p q.
  set (A := Z.min (Z.abs p) (Z.abs q)). set (B := Z.max (Z.abs p) (Z.abs q)). set (A' := Z.min (Z.abs (p + dx)) (Z.abs (q + dy))). set (B' := Z.max (Z.abs (p + dx)) (Z.abs (q + dy))).
  assert (diag * A + one * (B - A) = one * B + (diag - one) * A) as -> by lia. assert (diag * A' + one * (B' - A') = one * B' + (diag - one) * A') as -> by lia.
  set (δ := diag - one) in *. assert (0 <= δ <= one) by lia.
  destruct H as [[H ->]|(H1&H2&->)].
  - assert (B - B' + (A - A') <= 1 /\ B - B' <= 1 /\ A - A' <= 1 /\ (B - B' = 1 -> A - A' <= 0)) as (?&?&?&?) by lia. nia.
  - assert (B - B' <= 1 /\ A - A' <= 1) as [? ?] by lia. replace diag with (one + δ) by lia. nia.
Qed.
Lemma chamfer_nonneg c t : 0 <= ch c t.
Proof. unfold chamfer. assert (0 <= Z.min (Z.abs (c.1 - t.1)) (Z.abs (c.2 - t.2)) <= Z.max (Z.abs (c.1 - t.1)) (Z.abs (c.2 - t.2))) by lia. nia. Qed.
Lemma steps_nonneg c t : 0 <= steps c t.
Proof. unfold steps. lia. Qed.

(** A predecessor of [c] on a shortest path to [t]. *)
Lemma toward σ c t : σ = 1 \/ σ = -1 -> prec σ t c ->
  exists dx dy k, (dx, dy, k) ∈ dirsof one diag σ c.1 /\ ch c t = k + ch (c.1 + dx, c.2 + dy) t /\ steps c t = steps (c.1 + dx, c.2 + dy) t + 1 /\ bef σ t (c.1 + dx, c.2 + dy).
Proof.
  intros Hσ Hp. destruct c as [x y], t as [x0 y0]. unfold prec in Hp. cbn [fst snd] in *.
  set (p := σ * (x - x0)). set (q := y - y0). assert (0 <= p) by (destruct Hσ as [-> | ->], Hp as [?|[? ?]]; lia).
  assert (forall dx dy k, (dx, dy, k) ∈ dirsof one diag σ x -> ch (x, y) (x0, y0) = k + ch (x + dx, y + dy) (x0, y0) -> steps (x, y) (x0, y0) = steps (x + dx, y + dy) (x0, y0) + 1 -> bef σ (x0, y0) (x + dx, y + dy) ->
    exists dx dy k, (dx, dy, k) ∈ dirsof one diag σ x /\ ch (x, y) (x0, y0) = k + ch (x + dx, y + dy) (x0, y0) /\ steps (x, y) (x0, y0) = steps (x + dx, y + dy) (x0, y0) + 1 /\ bef σ (x0, y0) (x + dx, y + dy)) as Hex by eauto 10.
  assert (forall dx dy, ch (x + dx, y + dy) (x0, y0) = diag * Z.min (Z.abs (p + σ * dx)) (Z.abs (q + dy)) + one * (Z.max (Z.abs (p + σ * dx)) (Z.abs (q + dy)) - Z.min (Z.abs (p + σ * dx)) (Z.abs (q + dy))) /\
    steps (x + dx, y + dy) (x0, y0) = Z.max (Z.abs (p + σ * dx)) (Z.abs (q + dy))) as Hch.
  { intros dx dy. unfold chamfer, steps, p, q. cbn [fst snd]. replace (y + dy - y0) with (y - y0 + dy) by lia.
    replace (Z.abs (x + dx - x0)) with (Z.abs (σ * (x - x0) + σ * dx)); [done|]. destruct Hσ as [-> | ->]; lia. }
  assert (ch (x, y) (x0, y0) = diag * Z.min (Z.abs p) (Z.abs q) + one * (Z.max (Z.abs p) (Z.abs q) - Z.min (Z.abs p) (Z.abs q)) /\ steps (x, y) (x0, y0) = Z.max (Z.abs p) (Z.abs q)) as [Hc0 Hs0].
  { specialize (Hch 0 0). by rewrite Z.mul_0_r, !Z.add_0_r in Hch. }
  assert (forall dy, 1 < p -> bef σ (x0, y0) (x + - σ, y + dy)) as Hb1. { intros dy Hp1. right. left. cbn. unfold p in *. destruct Hσ as [-> | ->]; lia. }
  destruct (decide (Z.abs q <= p)) as [Hqp|Hqp].
  - assert (0 < p) as Hp0. { destruct Hp as [?|[? ?]]; [destruct Hσ as [-> | ->]; lia|]. unfold p, q in *. assert (y0 <> y) by (intros ->; lia). destruct Hσ as [-> | ->]; lia. }
    assert (σ * - σ = -1) as Hσσ by (destruct Hσ as [-> | ->]; lia).
    destruct (decide (q = 0)) as [Hq|Hq].
    + apply (Hex (-σ) 0 one); [unfold dirsof; set_solver| | |].
      * destruct (Hch (-σ) 0) as [-> _]. rewrite Hc0, Hσσ, Hq. replace (Z.abs (p + -1)) with (p - 1) by lia. replace (Z.abs p) with p by lia. rewrite Z.add_0_r. rewrite !Z.min_r, !Z.max_l by lia. lia.
      * destruct (Hch (-σ) 0) as [_ ->]. rewrite Hs0, Hσσ. lia.
      * destruct (decide (p = 1)); [left; unfold p, q in *; f_equal; destruct Hσ as [-> | ->]; lia|apply Hb1; lia].
    + assert (exists dy, (dy = 1 \/ dy = -1) /\ Z.abs (q + dy) = Z.abs q - 1) as (dy&Hdy&Hqd). { destruct (decide (0 < q)); [exists (-1); lia|exists 1; lia]. }
      apply (Hex (-σ) dy diag); [unfold dirsof; destruct Hdy as [-> | ->]; set_solver| | |].
      * destruct (Hch (-σ) dy) as [-> _]. rewrite Hc0, Hσσ, Hqd. replace (Z.abs (p + -1)) with (p - 1) by lia. replace (Z.abs p) with p by lia. rewrite !Z.min_r, !Z.max_l by lia. lia.
      * destruct (Hch (-σ) dy) as [_ ->]. rewrite Hs0, Hσσ, Hqd. lia.
      * destruct (decide (p = 1)); [left; unfold p, q in *; f_equal; [destruct Hσ as [-> | ->]; lia|lia]|apply Hb1; lia].
  - (* mostly sideways *)
    destruct (decide (0 < σ * hh x * q)) as [Hd|Hd].
    + assert (Z.abs (q + - (σ * hh x)) = Z.abs q - 1) as Hqd by (destruct (hh_cases x) as [(E&_)|(E&_)]; rewrite E in *; destruct Hσ as [-> | ->]; lia).
      apply (Hex 0 (-(σ * hh x)) one); [unfold dirsof; set_solver| | |].
      * destruct (Hch 0 (-(σ * hh x))) as [-> _]. rewrite Hc0, Z.mul_0_r, Z.add_0_r, Hqd. replace (Z.abs p) with p by lia. rewrite !Z.min_l, !Z.max_r by lia. lia.
      * destruct (Hch 0 (-(σ * hh x))) as [_ ->]. rewrite Hs0, Z.mul_0_r, Z.add_0_r, Hqd. lia.
      * unfold bef, prec. cbn. rewrite !Z.add_0_r. destruct (decide (p = 0)) as [E|E].
        -- assert (x0 = x) as -> by (unfold p in E; destruct Hσ as [-> | ->]; lia). unfold q in *. destruct (decide (Z.abs q = 1)) as [E1|E1]; unfold q in *.
           ++ left. f_equal. destruct (hh_cases x) as [(E2&_)|(E2&_)]; rewrite E2 in *; destruct Hσ as [-> | ->]; lia.
           ++ right. right. split; [done|]. destruct (hh_cases x) as [(E2&_)|(E2&_)]; rewrite E2 in *; destruct Hσ as [-> | ->]; lia.
        -- right. left. unfold p in *. destruct Hσ as [-> | ->]; lia.
    + assert (0 < p) as Hp0. { destruct Hp as [Hp|[-> Hp]]; [unfold p; destruct Hσ as [-> | ->]; lia|]. exfalso. apply Hd. unfold q. destruct (hh_cases x) as [(E2&_)|(E2&_)]; rewrite E2 in *; destruct Hσ as [-> | ->]; lia. }
      assert (σ * - σ = -1) as Hσσ by (destruct Hσ as [-> | ->]; lia).
      assert (exists dy, (dy = 1 \/ dy = -1) /\ Z.abs (q + dy) = Z.abs q - 1 /\ 0 < σ * hh (x + - σ) * (q + dy)) as (dy&Hdy&Hqd&Hdir).
      { assert (σ * hh (x + - σ) = - (σ * hh x)) as Eh. { rewrite Z.add_opp_r. destruct Hσ as [-> | ->]; [|replace (x - -1) with (x + 1) by lia]; destruct (hh_cases x) as [(E1&E2&E3)|(E1&E2&E3)]; rewrite E1, ?E2, ?E3; lia. }
        rewrite Eh. destruct (hh_cases x) as [(E1&_)|(E1&_)]; rewrite E1 in *; destruct (decide (0 < q)); [exists (-1)|exists 1|exists (-1)|exists 1]; destruct Hσ as [-> | ->]; lia. }
      apply (Hex (-σ) dy diag); [unfold dirsof; destruct Hdy as [-> | ->]; set_solver| | |].
      * destruct (Hch (-σ) dy) as [-> _]. rewrite Hc0, Hσσ, Hqd. replace (Z.abs (p + -1)) with (p - 1) by lia. replace (Z.abs p) with p by lia. rewrite !Z.min_l, !Z.max_r by lia. lia.
      * destruct (Hch (-σ) dy) as [_ ->]. rewrite Hs0, Hσσ, Hqd. lia.
      * destruct (decide (p = 1)) as [E|E]; [|apply Hb1; lia]. right. right. cbn. unfold p, q in *. split; [destruct Hσ as [-> | ->]; lia|].
        assert (x + - σ = x0) as Ex by (destruct Hσ as [-> | ->]; lia). lia.
Qed.

Lemma outside_spec x y : outside w h x y = true <-> ~ inmap w h (x, y).
Proof. unfold outside, inmap. cbn. lia. Qed.
Lemma seed_outside b c : ~ inmap w h c -> seed b c.
Proof. intros H. destruct b; intros Hi; done. Qed.
Lemma pow_pos' a n : 0 < a -> 0 <= n -> 0 < a ^ n.
Proof. intros. by apply Z.pow_pos_nonneg. Qed.
Lemma pow_S a n : 0 <= n -> a ^ (n + 1) = a * a ^ n.
Proof. intros. rewrite Z.pow_add_r by lia. rewrite Z.pow_1_r. lia. Qed.

(** Upper and lower bound of a stored value. *)
Definition ub (v : Z) (c t : Z * Z) : Prop := U ^ steps c t * v <= P ^ steps c t * ch c t.
Definition lb (b : bool) (v : Z) (c : Z * Z) : Prop :=
  0 <= v /\ exists t m, seed b t /\ 0 <= m <= N /\ M ^ m * ch c t <= U ^ m * v /\ m * one * M ^ m <= U ^ m * v.
Definition cand (A : arr) (b : bool) (c : Z * Z) (d : Z * Z * Z) : Z :=
  if outside w h (c.1 + d.1.1) (c.2 + d.1.2) then d.2
  else match A !! (c.1 + d.1.1, c.2 + d.1.2) with Some v => add d.2 (sel b v) | None => 0 end.

Lemma overdirs_spec A c dirs : forall m, (forall d, d ∈ dirs -> inmap w h (c.1 + d.1.1, c.2 + d.1.2) -> is_Some (A !! (c.1 + d.1.1, c.2 + d.1.2))) ->
  exists m', overdirs add w h A c.1 c.2 dirs m = Ok m' /\ forall b, sel b m' <= sel b m /\ (forall d, d ∈ dirs -> sel b m' <= cand A b c d) /\
    (sel b m' = sel b m \/ exists d, d ∈ dirs /\ sel b m' = cand A b c d /\ cand A b c d < sel b m).
Proof.
  induction dirs as [|[[dx dy] k] dirs IH]; intros m Hd; cbn [overdirs].
  - exists m. split; [done|]. intros b. split_and!; [lia| |by left]. intros d Hd'. by apply elem_of_nil in Hd'.
  - assert (exists e, (if outside w h (c.1 + dx) (c.2 + dy) then Ok (k, k) else match A !! (c.1 + dx, c.2 + dy) with None => UB | Some v => Ok (add k v.1, add k v.2) end) = @Ok Empty_set _ e /\ forall b, sel b e = cand A b c (dx, dy, k)) as (e&Ee&He).
    { unfold cand. cbn [fst snd]. destruct (outside w h (c.1 + dx) (c.2 + dy)) eqn:Eo; [exists (k, k); split; [done|]; by intros []|].
      destruct (Hd (dx, dy, k)) as [v Hv]; [left|cbn; destruct (decide (inmap w h (c.1 + dx, c.2 + dy))) as [|Hn]; [done|]; apply outside_spec in Hn; congruence|]. cbn in Hv. rewrite Hv. eexists. split; [done|]. by intros []. }
    rewrite Ee. cbn [obind]. set (m1 := (if e.1 <? m.1 then e.1 else m.1, if e.2 <? m.2 then e.2 else m.2)).
    assert (forall b, sel b m1 = Z.min (sel b e) (sel b m)) as Hm1. { intros []; cbn; [destruct (e.1 <? m.1) eqn:?|destruct (e.2 <? m.2) eqn:?]; lia. }
    destruct (IH m1) as (m'&Em&Hm); [intros d Hd'; apply Hd; by right|]. exists m'. split; [done|]. intros b. destruct (Hm b) as (H1&H2&H3). rewrite Hm1 in H1, H3. rewrite He in H1, H3.
    split_and!; [lia| |].
    + intros d [->|Hd']%elem_of_cons; [lia|auto].
    + destruct H3 as [H3|(d&Hd'&H3&H4)].
      * destruct (decide (cand A b c (dx, dy, k) < sel b m)); [right; exists (dx, dy, k); split_and!; [left|lia|lia]|left; lia].
      * right. exists d. split_and!; [by right|lia|lia].
Qed.

Lemma dirs_prec σ c d : σ = 1 \/ σ = -1 -> d ∈ dirsof one diag σ c.1 -> prec σ (c.1 + d.1.1, c.2 + d.1.2) c /\ 0 <= d.2 /\ one <= d.2 /\
  forall t, ch c t <= d.2 + ch (c.1 + d.1.1, c.2 + d.1.2) t.
Proof.
  intros Hσ Hd. unfold dirsof in Hd. assert (hh c.1 = 1 \/ hh c.1 = -1) as Hh by (destruct (hh_cases c.1); naive_solver).
  repeat apply elem_of_cons in Hd as [->|Hd]; [| | | |by apply elem_of_nil in Hd]; cbn [fst snd]; (split_and!; [unfold prec; cbn [fst snd]|lia|lia|intros t; apply chamfer_step]).
  1, 3, 5: left; destruct Hσ as [-> | ->]; lia.
  all: try (destruct Hσ as [-> | ->]; lia).
Qed.

(** The state of the cells already treated in a pass. *)
Definition okc (σ : Z) (b : bool) (v : Z) (c : Z * Z) : Prop := v <= maxd /\ lb b v c /\ forall t, seed b t -> bef σ t c -> ub v c t.

Lemma cell_step σ A c m : σ = 1 \/ σ = -1 -> inmap w h c ->
  (forall c', inmap w h c' -> prec σ c' c -> exists v, A !! c' = Some v /\ forall b, okc σ b (sel b v) c') ->
  (forall b, sel b m <= maxd /\ lb b (sel b m) c /\ (seed b c -> sel b m <= 0)) ->
  exists m', overdirs add w h A c.1 c.2 (dirsof one diag σ c.1) m = Ok m' /\ forall b, sel b m' <= sel b m /\ okc σ b (sel b m') c.
Proof.
  intros Hσ Hin Hprev Hm.
  destruct (overdirs_spec A c (dirsof one diag σ c.1) m) as (m'&E&Hm').
  { intros d Hd Hi. destruct (dirs_prec σ c d Hσ Hd) as (Hp&_). destruct (Hprev _ Hi Hp) as (v&Hv&_). eauto. }
  exists m'. split; [done|]. intros b. destruct (Hm' b) as (H1&H2&H3). destruct (Hm b) as (Hm1&Hm2&Hm3). split; [done|].
  (* the candidate of a neighbour *)
  assert (forall d, d ∈ dirsof one diag σ c.1 -> exists v, 0 <= v /\ lb b v (c.1 + d.1.1, c.2 + d.1.2) /\ M * (d.2 + v) <= U * cand A b c d <= P * (d.2 + v) /\
     (forall t, seed b t -> bef σ t (c.1 + d.1.1, c.2 + d.1.2) -> ub v (c.1 + d.1.1, c.2 + d.1.2) t)) as Hcand.
  { intros d Hd. destruct (dirs_prec σ c d Hσ Hd) as (Hp&Hk&_). unfold cand. destruct (outside w h (c.1 + d.1.1) (c.2 + d.1.2)) eqn:Eo.
    - apply outside_spec in Eo. exists 0. split_and!; [lia| |nia|nia|].
      + split; [lia|]. exists (c.1 + d.1.1, c.2 + d.1.2), 0. split_and!; [by apply seed_outside|lia|lia| |cbn; lia]. unfold chamfer. rewrite !Z.sub_diag. cbn. lia.
      + intros t Ht _. unfold ub. rewrite Z.mul_0_r. apply Z.mul_nonneg_nonneg; [apply Z.pow_nonneg; lia|apply chamfer_nonneg].
    - assert (inmap w h (c.1 + d.1.1, c.2 + d.1.2)) as Hi. { destruct (decide (inmap w h (c.1 + d.1.1, c.2 + d.1.2))) as [|Hn]; [done|]. apply outside_spec in Hn. congruence. }
      destruct (Hprev _ Hi Hp) as (v&Hv&Hok). rewrite Hv. destruct (Hok b) as (_&[Hv0 Hlb]&Hub). exists (sel b v). split; [done|]. split; [by split|]. split; [|done]. apply Herr; lia. }
  split; [lia|]. split.
  - (* lower bound *)
    destruct H3 as [H3|(d&Hd&H3&H4)]; [by rewrite H3|]. destruct (Hcand d Hd) as (v&Hv0&(_&t&k&Hst&Hk&Hl1&Hl2)&[He1 He2]&_). destruct (dirs_prec σ c d Hσ Hd) as (_&Hd0&Hd1&Htri). specialize (Htri t).
    rewrite H3. assert (0 <= cand A b c d) as Hc0 by nia. split; [done|]. exists t, (k + 1). rewrite !pow_S by lia.
    assert (0 < M ^ k) by (apply pow_pos'; lia). assert (0 < U ^ k) by (apply pow_pos'; lia). assert (M ^ k <= U ^ k) by (apply Z.pow_le_mono_l; lia).
    set (C := cand A b c d) in *. set (MK := M ^ k) in *. set (UK := U ^ k) in *.
    assert (M * (UK * (d.2 + v)) <= U * UK * C) as Hgen by nia.
    assert (M * MK * ch c t <= U * UK * C) as G1.
    { etrans; [|exact Hgen]. rewrite <- Z.mul_assoc. apply Z.mul_le_mono_nonneg_l; [lia|]. etrans; [apply Z.mul_le_mono_nonneg_l; [lia|exact Htri]|]. nia. }
    assert ((k + 1) * one * (M * MK) <= U * UK * C) as G2.
    { etrans; [|exact Hgen]. replace ((k + 1) * one * (M * MK)) with (M * ((k * one * MK) + one * MK)) by lia. apply Z.mul_le_mono_nonneg_l; [lia|]. nia. }
    assert (k + 1 <= N). { apply (HB k C); [done|rewrite !pow_S by lia; fold MK UK; lia|lia]. }
    split_and!; [done|lia|lia|lia|lia].
  - (* upper bound *)
    intros t Ht [->|Hp].
    + assert (sel b m' <= 0) by (specialize (Hm3 Ht); lia). unfold ub. assert (0 <= P ^ steps c c * ch c c) by (apply Z.mul_nonneg_nonneg; [apply Z.pow_nonneg; lia|apply chamfer_nonneg]).
      assert (0 <= U ^ steps c c) by (apply Z.pow_nonneg; lia). nia.
    + destruct (toward σ c t Hσ Hp) as (dx&dy&k&Hd&Hch&Hst&Hb). specialize (H2 _ Hd). destruct (Hcand _ Hd) as (v&Hv0&_&[He1 He2]&Hub). cbn [fst snd] in *. specialize (Hub t Ht Hb). unfold ub in *. rewrite Hst, Hch.
      destruct (dirs_prec σ c _ Hσ Hd) as (_&Hk0&_). cbn in Hk0.
      pose proof (steps_nonneg (c.1 + dx, c.2 + dy) t) as Hs0. set (n := steps (c.1 + dx, c.2 + dy) t) in *. set (ct := ch (c.1 + dx, c.2 + dy) t) in *. rewrite !pow_S by done.
      assert (0 < U ^ n) by (apply pow_pos'; lia). assert (U ^ n <= P ^ n) by (apply Z.pow_le_mono_l; lia). set (UN := U ^ n) in *. set (PN := P ^ n) in *.
      assert (U * sel b m' <= P * (k + v)) by nia.
      assert (U * UN * sel b m' <= P * (UN * (k + v))) by nia.
      assert (UN * (k + v) <= PN * (k + ct)) by nia. nia.
Qed.

(** Visiting a list of cells. *)
Lemma foreach_inv (f : arr -> Z * Z -> dres arr) (I : list (Z * Z) -> arr -> Prop) l : forall l0 A, I l0 A ->
  (forall l1 c l2 A, l0 ++ l = l1 ++ c :: l2 -> I l1 A -> exists A', f A c = Ok A' /\ I (l1 ++ [c]) A') -> exists A', foreach f l A = Ok A' /\ I (l0 ++ l) A'.
Proof.
  induction l as [|c l IH]; intros l0 A HI Hstep; cbn [foreach].
  - exists A. by rewrite app_nil_r.
  - destruct (Hstep l0 c l A eq_refl HI) as (A1&E&HI1). rewrite E. cbn [obind]. destruct (IH (l0 ++ [c]) A1 HI1) as (A2&E2&HI2).
    { intros l1 c1 l2 A' E' HI'. rewrite <- app_assoc in E'. by eapply Hstep. }
    exists A2. split; [done|]. by rewrite <- app_assoc in HI2.
Qed.

Lemma SS_app {T} (R : T -> T -> Prop) l1 l2 : StronglySorted R l1 -> StronglySorted R l2 -> (forall x y, x ∈ l1 -> y ∈ l2 -> R x y) -> StronglySorted R (l1 ++ l2).
Proof.
  induction l1 as [|x l1 IH]; intros H1 H2 H; [done|]. apply StronglySorted_inv in H1 as [H1 Hf]. cbn. constructor; [apply IH; [done|done|intros; apply H; [by right|done]]|].
  apply Forall_app. split; [done|]. apply Forall_forall. intros y Hy. apply H; [left|done].
Qed.
Lemma SS_flat {S T} (R : T -> T -> Prop) (Q : S -> S -> Prop) (f : S -> list T) l : StronglySorted Q l -> (forall x, x ∈ l -> StronglySorted R (f x)) ->
  (forall x x' y y', Q x x' -> y ∈ f x -> y' ∈ f x' -> R y y') -> StronglySorted R (flat_map f l).
Proof.
  induction l as [|x l IH]; intros Hl Hf HQ; cbn; [constructor|]. apply StronglySorted_inv in Hl as [Hl1 Hl2]. apply SS_app.
  - apply Hf. left.
  - apply IH; [done|intros; apply Hf; by right|done].
  - intros y y' Hy Hy'. apply elem_of_list_In, in_flat_map in Hy' as (x'&Hx'&Hy'). apply elem_of_list_In in Hx'. rewrite Forall_forall in Hl2. eapply HQ; [apply Hl2; exact Hx'|done|by apply elem_of_list_In].
Qed.
Lemma asc_sorted n : StronglySorted Z.lt (asc n).
Proof.
  unfold asc, seqZ. assert (forall k len, StronglySorted Z.lt ((fun i : nat => Z.of_nat i + 0) <$> seq k len)) as H; [|apply H].
  intros k len. revert k. induction len as [|len IH]; intros k; cbn; [constructor|]. constructor; [apply IH|]. apply Forall_forall. intros x (i&->&Hi)%elem_of_list_fmap. apply elem_of_seq in Hi. lia.
Qed.
Lemma SS_rev {T} (R : T -> T -> Prop) l : StronglySorted R l -> StronglySorted (fun x y => R y x) (rev l).
Proof.
  induction l as [|x l IH]; intros H; cbn; [constructor|]. apply StronglySorted_inv in H as [H1 H2]. apply SS_app; [auto|repeat constructor|].
  intros a b Ha Hb. apply elem_of_list_singleton in Hb as ->. apply elem_of_list_In, in_rev, elem_of_list_In in Ha. rewrite Forall_forall in H2. auto.
Qed.
Lemma in_asc n y : y ∈ asc n <-> 0 <= y < n.
Proof. unfold asc. rewrite elem_of_seqZ. lia. Qed.
Lemma in_desc n y : y ∈ desc n <-> 0 <= y < n.
Proof. unfold desc. rewrite elem_of_list_In, <- in_rev, <- elem_of_list_In. apply in_asc. Qed.
Lemma SS_map {S T} (R : T -> T -> Prop) (f : S -> T) l : StronglySorted (fun x y => R (f x) (f y)) l -> StronglySorted R (map f l).
Proof.
  induction l as [|x l IH]; intros H; cbn; [constructor|]. apply StronglySorted_inv in H as [H1 H2]. constructor; [auto|]. apply Forall_forall. intros y Hy. apply elem_of_list_fmap in Hy as (z&->&Hz). rewrite Forall_forall in H2. auto.
Qed.
Lemma SS_impl {T} (R R' : T -> T -> Prop) l : (forall x y, R x y -> R' x y) -> StronglySorted R l -> StronglySorted R' l.
Proof. intros HR. induction l as [|x l IH]; intros H; [constructor|]. apply StronglySorted_inv in H as [H1 H2]. constructor; [auto|]. eapply Forall_impl; [done|]. auto. Qed.

Lemma down_sorted : StronglySorted (prec 1) (down_order w h).
Proof.
  unfold down_order. eapply (SS_flat _ Z.lt); [apply asc_sorted| |].
  - intros x _. apply SS_map. unfold prec, hh. cbn [fst snd]. destruct (Z.even x) eqn:E.
    + eapply SS_impl; [|apply asc_sorted]. intros; right; rewrite ?E; lia.
    + unfold desc. eapply SS_impl; [|apply SS_rev, asc_sorted]. cbn. intros; right; rewrite ?E; lia.
  - intros x x' y y' Hx Hy Hy'. apply elem_of_list_fmap in Hy as (z&->&_). apply elem_of_list_fmap in Hy' as (z'&->&_). left. cbn. lia.
Qed.
Lemma up_sorted : StronglySorted (prec (-1)) (up_order w h).
Proof.
  unfold up_order. eapply (SS_flat _ (fun x y => y < x)); [apply SS_rev, asc_sorted| |].
  - intros x _. apply SS_map. unfold prec, hh. cbn [fst snd]. destruct (Z.even x) eqn:E.
    + unfold desc. eapply SS_impl; [|apply SS_rev, asc_sorted]. cbn. intros; right; rewrite ?E; lia.
    + eapply SS_impl; [|apply asc_sorted]. intros; right; rewrite ?E; lia.
  - intros x x' y y' Hx Hy Hy'. apply elem_of_list_fmap in Hy as (z&->&_). apply elem_of_list_fmap in Hy' as (z'&->&_). left. cbn. lia.
Qed.
Lemma in_flat (g : Z -> list Z) l (c : Z * Z) : c ∈ flat_map (fun x => map (fun y => (x, y)) (g x)) l <-> c.1 ∈ l /\ c.2 ∈ g c.1.
Proof.
  rewrite elem_of_list_In, in_flat_map. split.
  - intros (x&Hx&Hc). apply elem_of_list_In in Hx, Hc. apply elem_of_list_fmap in Hc as (y&->&Hy). done.
  - intros [Hx Hy]. exists c.1. split; [by apply elem_of_list_In|]. apply elem_of_list_In, elem_of_list_fmap. exists c.2. by destruct c.
Qed.
Lemma in_down c : c ∈ down_order w h <-> inmap w h c.
Proof. unfold down_order, inmap. rewrite in_flat, in_asc. destruct (Z.even c.1); rewrite ?in_asc, ?in_desc; done. Qed.
Lemma in_up c : c ∈ up_order w h <-> inmap w h c.
Proof. unfold up_order, inmap. rewrite in_flat, in_desc. destruct (Z.even c.1); rewrite ?in_asc, ?in_desc; done. Qed.
Lemma prec_irrefl σ c : ~ prec σ c c.
Proof. unfold prec. rewrite !Z.sub_diag, !Z.mul_0_r. lia. Qed.
Lemma prec_asym σ c c' : prec σ c c' -> prec σ c' c -> False.
Proof. unfold prec. intros [H1|[E1 H1]] [H2|[E2 H2]]; rewrite ?E1, ?E2 in *; lia. Qed.
(** In a list sorted by [prec], what precedes [c] has been visited before it. *)
Lemma before_visited σ l1 c l2 c' : StronglySorted (prec σ) (l1 ++ c :: l2) -> c' ∈ l1 ++ c :: l2 -> prec σ c' c -> c' ∈ l1.
Proof.
  intros Hs Hin Hp. apply elem_of_app in Hin as [|Hin]; [done|]. exfalso. apply elem_of_cons in Hin as [->|Hin]; [by eapply prec_irrefl|].
  induction l1 as [|x l1 IH]; cbn in Hs; apply StronglySorted_inv in Hs as [Hs1 Hs2]; [|auto]. rewrite Forall_forall in Hs2. eapply prec_asym; eauto.
Qed.

Theorem distances_spec A0 : exists A, distances add one diag maxd grid w h thr A0 = Ok A /\
  forall c, inmap w h c -> exists v, A !! c = Some v /\ forall b, lb b (sel b v) c /\ forall t, seed b t -> ub (sel b v) c t.
Proof.
  unfold distances.
  destruct (foreach_inv (down_cell add one diag maxd grid w h thr) (fun l A => forall c, c ∈ l -> exists v, A !! c = Some v /\ forall b, okc 1 b (sel b v) c) (down_order w h) [] A0) as (A1&E1&H1).
  { intros c Hc. by apply elem_of_nil in Hc. }
  { intros l1 c l2 A El HI. cbn [app] in El. assert (inmap w h c) as Hin by (apply in_down; rewrite El; apply elem_of_app; right; left).
    assert (forall v, (forall b, okc 1 b (sel b v) c) -> forall c', c' ∈ l1 ++ [c] -> exists v', <[c := v]> A !! c' = Some v' /\ forall b, okc 1 b (sel b v') c') as Hext.
    { intros v Hv c' Hc'. destruct (decide (c' = c)) as [->|Hne]; [exists v; by rewrite lookup_insert|]. rewrite lookup_insert_ne by done. apply HI. apply elem_of_app in Hc' as [|Hc']; [done|]. apply elem_of_list_singleton in Hc'. done. }
    assert (0 <= maxd) as Hmx0. { pose proof (Hmax c Hin). destruct Hin. nia. }
    assert (forall b, seed b c -> lb b 0 c) as Hlb0. { intros b Hs. split; [lia|]. exists c, 0. split_and!; [done|lia|lia| |cbn; lia]. unfold chamfer. rewrite !Z.sub_diag. cbn. lia. }
    unfold down_cell. destruct (grid c.1 c.2 >=? thr) eqn:Eg.
    - eexists. split; [done|]. apply Hext. intros b. replace (sel b (0, 0)) with 0 by (by destruct b).
      assert (forall b, seed b c) as Hsd by (intros []; intros _; [lia|left; lia]). split; [done|]. split; [auto|]. intros t Ht _. unfold ub. rewrite Z.mul_0_r. apply Z.mul_nonneg_nonneg; [apply Z.pow_nonneg; lia|apply chamfer_nonneg].
    - assert ((if Z.even c.1 then downlefttoright one diag else downrighttoleft one diag) = dirsof one diag 1 c.1) as -> by (unfold dirsof, hh; destruct (Z.even c.1); done).
      destruct (cell_step 1 A c (maxd, if grid c.1 c.2 >? 0 then 0 else maxd)) as (m'&Em&Hm); [by left|done| | |].
      + intros c' Hc' Hp. apply HI. eapply (before_visited 1 l1 c l2); [rewrite <- El; apply down_sorted|rewrite <- El; by apply in_down|done].
      + assert (forall b, lb b maxd c) as Hlbm.
        { intros b. split; [done|]. pose proof (Hmax c Hin) as Hmc. destruct Hin as [Hx Hy].
          assert (0 < U ^ 0 /\ M ^ 0 = 1 /\ U ^ 0 = 1) as (_&EM&EU) by done.
          destruct (decide (w <= h)).
          - exists (-1, c.2), 0. rewrite EM, EU. split_and!; [apply seed_outside; unfold inmap; cbn; lia|lia|lia| |lia]. unfold chamfer. cbn [fst snd]. rewrite Z.sub_diag. change (Z.abs 0) with 0. rewrite Z.min_r, Z.max_l by lia. nia.
          - exists (c.1, -1), 0. rewrite EM, EU. split_and!; [apply seed_outside; unfold inmap; cbn; lia|lia|lia| |lia]. unfold chamfer. cbn [fst snd]. rewrite Z.sub_diag. change (Z.abs 0) with 0. rewrite Z.min_l, Z.max_r by lia. nia. }
        intros []; cbn [sel fst snd].
        * split_and!; [done|apply Hlbm|]. intros Hs. specialize (Hs Hin). lia.
        * destruct (grid c.1 c.2 >? 0) eqn:Eg0; split_and!; [lia|apply Hlb0; intros _; right; lia|lia|lia|apply Hlbm|]. intros Hs. destruct (Hs Hin); lia.
      + rewrite Em. cbn [obind]. eexists. split; [done|]. apply Hext. intros b. apply Hm. }
  rewrite E1. cbn [obind app] in *.
  destruct (foreach_inv (up_cell add one diag w h) (fun l A => forall c, inmap w h c -> exists v, A !! c = Some v /\ forall b, okc 1 b (sel b v) c /\ (c ∈ l -> okc (-1) b (sel b v) c)) (up_order w h) [] A1) as (A2&E2&H2).
  { intros c Hc. destruct (H1 c) as (v&Hv&Hok); [by apply in_down|]. exists v. split; [done|]. intros b. split; [done|]. intros Hn. by apply elem_of_nil in Hn. }
  { intros l1 c l2 A El HI. cbn [app] in El. assert (inmap w h c) as Hin by (apply in_up; rewrite El; apply elem_of_app; right; left).
    unfold up_cell. destruct (HI c Hin) as (v&Hv&Hok). rewrite Hv.
    assert ((if Z.even c.1 then uprighttoleft one diag else uplefttoright one diag) = dirsof one diag (-1) c.1) as -> by (unfold dirsof, hh; destruct (Z.even c.1); done).
    destruct (cell_step (-1) A c v) as (m'&Em&Hm); [by right|done| | |].
    - intros c' Hc' Hp. destruct (HI c' Hc') as (v'&Hv'&Hok'). exists v'. split; [done|]. intros b. apply Hok'. eapply (before_visited (-1) l1 c l2); [rewrite <- El; apply up_sorted|rewrite <- El; by apply in_up|done].
    - intros b. destruct (Hok b) as ((H3&H4&H5)&_). split_and!; [done|done|]. intros Hs. specialize (H5 c Hs (or_introl eq_refl)). unfold ub, steps, chamfer in H5. rewrite !Z.sub_diag in H5. cbn in H5. lia.
    - rewrite Em. cbn [obind]. eexists. split; [done|]. intros c' Hc'. destruct (decide (c' = c)) as [->|Hne].
      + exists m'. rewrite lookup_insert. split; [done|]. intros b. destruct (Hm b) as [Hle Hok']. split; [|done]. destruct (Hok b) as ((H3&H4&H5)&_). destruct Hok' as (H6&H7&H8). split_and!; [done|done|].
        intros t Ht Hb. specialize (H5 t Ht Hb). unfold ub in *. assert (0 <= U ^ steps c t) by (apply Z.pow_nonneg; lia). nia.
      + rewrite lookup_insert_ne by done. destruct (HI c' Hc') as (v'&Hv'&Hok'). exists v'. split; [done|]. intros b. destruct (Hok' b) as [H3 H4]. split; [done|]. intros Hi. apply H4. apply elem_of_app in Hi as [|Hi]; [done|]. apply elem_of_list_singleton in Hi. done. }
  exists A2. split; [done|]. intros c Hc. destruct (H2 c Hc) as (v&Hv&Hok). exists v. split; [done|]. intros b. destruct (Hok b) as ((H3&H4&H5)&H6). split; [done|]. intros t Ht.
  destruct (H6 (proj2 (in_up c) Hc)) as (_&_&H7).
  destruct (decide (t = c)) as [->|Hne]; [apply H5; [done|by left]|].
  assert (prec 1 t c \/ prec (-1) t c) as [Hp|Hp]; [|apply H5; [done|by right]|apply H7; [done|by right]].
  unfold prec. destruct t as [tx ty], c as [cx cy]. cbn [fst snd] in *. destruct (decide (tx < cx)); [left; left; lia|]. destruct (decide (cx < tx)); [right; left; lia|].
  assert (tx = cx) as -> by lia. assert (ty <> cy) by congruence. destruct (hh_cases cx) as [(->&_)|(->&_)]; destruct (decide (ty < cy)); [left|right|right|left]; right; lia.
Qed.
End proofs.
