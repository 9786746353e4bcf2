(** The values LazyARA* computes are bounded by the inflated costs of routes. *)
From Coq Require Import ZifyBool ZifyNat QArith Qround Lqa.
From Verif Require Import Base KeyModel HeapModel HeapProofs AngleModel AngleProofs AraModel AraSpec AraProofs AraPath MhaProofs LazyModel LazySpec LazyPq LazyProofs LazyProofs2.
Local Open Scope Z_scope.

Section run.
Context (e : lenv) (fwd : bool) (E : Q) (N : nat) (rep : Z) (start goal : nat).
Context (HG : good_lenv fwd E N e) (Hz : zero_at e fwd goal) (Hrep : 0 <= rep < 65535) (HsN : (start < N)%nat) (HgN : (goal < N)%nat).
Notation nb := (lnbrs e fwd).
Notation hr := (lheur e fwd).
Notation tc := (ltcost e fwd).
Notation lkz := (lkz e fwd rep).
Notation lz := (lz rep).
Notation g c s := (lG (lkz c s)).
Notation v c s := (lV (lkz c s)).
Notation cl c s := (lClosed (lkz c s)).
Notation ls c s := (lList (lkz c s)).
Notation tr c s := (lTrue (lkz c s)).
Notation bp c s := (lBest (lkz c s)).
Notation xp c s := (lExp (lkz c s)).
Notation VI := (VI e fwd N rep start goal).
Notation sedge := (sedge e fwd).
Notation sl := (sl e fwd).
Notation zval := (zval e fwd rep).
Notation ins_case := (ins_case e fwd rep).
Notation gn_case := (gn_case e fwd rep).
Notation frame := (frame e fwd rep).
Notation eqinc := (eqinc e fwd rep).
Context (Hest : forall p t c, (t, c, false) ∈ nb p -> 0 < tc p t -> c <= tc p t) (Hcons : forall p t w, sedge p t w -> hr p <= w + hr t).

(** Routes of the search graph from the start that do not leave the goal. *)
Inductive srg (W : Z -> Z) : nat -> Z -> Prop :=
| srg_0 : srg W start 0
| srg_S s t w C : srg W s C -> s <> goal -> sedge s t w -> srg W t (C + W w).

(** The edge s -> t of cost w is taken care of by what is stored for [t]. *)
Definition cov (c : lcore) (s t : nat) (w : Z) : Prop :=
  g c t <= v c s + w /\ (tr c t = true \/ bp c t = Some s /\ tc s t = w /\ 0 < w) \/
  exists x, x ∈ ls c t /\ zval c x <= v c s + w /\ (leTrue x = true \/ lePar x = s /\ tc s t = w /\ 0 < w).

Definition alltrue : Prop := forall p t w b, (t, w, b) ∈ nb p -> b = true.
Record BI (eps : Q) (iter : Z) (P : nat -> nat -> Z -> Prop) (c : lcore) : Prop := {
  b_list : forall t x, x ∈ ls c t -> g c t <= zval c x;
  b_pq : forall t, hord (zval c) (ls c t);
  b_mode : alltrue /\ (forall t, tr c t = true) \/ (forall s, v c s < INFINITECOST -> cl c s = iter);
  b_edge : forall s t w, v c s < INFINITECOST -> s <> goal -> sedge s t w -> v c t <= v c s + w \/ cov c s t w \/ P s t w;
  b_bound : forall s C, cl c s = iter -> srg (inflate eps) s C -> v c s <= C
}.
Definition nopend : nat -> nat -> Z -> Prop := fun _ _ _ => False.
Definition pmatch (ns : list (nat * Z * bool)) (s u t : nat) (w : Z) : Prop :=
  u = s /\ ((t, w, true) ∈ ns \/ exists c, (t, c, false) ∈ ns /\ tc s t = w /\ 0 < w).

Section iter.
Context (eps : Q) (iter : Z) (Heps : (0 <= eps <= E)%Q) (Hiter : 0 <= iter < 65535).
Notation BI := (BI eps iter).
Notation VV ex c m := (VI eps iter false ex c m).

Lemma ls_true c m ex t : VV ex c m -> ls c t <> [] -> tr c t = false /\ g c t < v c t.
Proof using All.
  intros I Hl. destruct (tr c t) eqn:Et; [by rewrite (v_true _ _ _ _ _ _ _ _ _ _ _ _ I t Et) in Hl|]. split; [done|].
  by destruct (v_tr _ _ _ _ _ _ _ _ _ _ _ _ I t Et) as [?|[_ ?]].
Qed.

(** Only what is stored for [t] changes. *)
Lemma BI_frame (P P' : nat -> nat -> Z -> Prop) c c' t : frame c c' t -> BI P c ->
  (forall x, x ∈ ls c' t -> g c' t <= zval c x) -> hord (zval c) (ls c' t) -> (alltrue -> tr c' t = true) ->
  (forall s w, v c s < INFINITECOST -> s <> goal -> sedge s t w -> v c t <= v c s + w \/ cov c s t w \/ P s t w -> v c t <= v c s + w \/ cov c' s t w \/ P' s t w) ->
  (forall s u w, u <> t -> P s u w -> P' s u w) -> BI P' c'.
Proof.
  intros F B H1 H2 H3 H4 H5. pose proof F as (F1&_).
  assert (forall u, v c' u = v c u) as Fv by (intros; by apply (frame_v _ _ _ _ _ t)).
  assert (forall u, cl c' u = cl c u) as Fc by (intros; by apply (frame_cl _ _ _ _ _ t)).
  assert (forall x, zval c' x = zval c x) as Fz by (intros; by apply (frame_zval _ _ _ _ _ t)).
  split.
  - intros u x. rewrite Fz. destruct (decide (u = t)) as [->|Hn]; [apply H1|]. rewrite F1 by done. apply (b_list _ _ _ _ B).
  - intros u. apply (hord_ext (zval c)); [by intros|]. destruct (decide (u = t)) as [->|Hn]; [done|]. rewrite F1 by done. apply (b_pq _ _ _ _ B).
  - destruct (b_mode _ _ _ _ B) as [[Ha Hb]|Hb]; [left|right; intros u; rewrite Fv, Fc; apply Hb]. split; [done|].
    intros u. destruct (decide (u = t)) as [->|Hn]; [by apply H3|]. by rewrite F1.
  - intros s u w. rewrite !Fv. intros A1 A2 A3. pose proof (b_edge _ _ _ _ B s u w A1 A2 A3) as HB.
    destruct (decide (u = t)) as [->|Hn]; [by apply H4|]. destruct HB as [?|[Hc|?]]; [by left| |right; right; by apply H5].
    right. left. unfold cov in *. rewrite F1, Fv by done. destruct Hc as [?|(x&?&?&?)]; [by left|right]. exists x. by rewrite Fz.
  - intros s C. rewrite Fv, Fc. apply (b_bound _ _ _ _ B).
Qed.

Lemma BI_same (P P' : nat -> nat -> Z -> Prop) c c' : (forall u, lkz c' u = lkz c u) -> BI P c ->
  (forall s t w, v c s < INFINITECOST -> s <> goal -> sedge s t w -> P s t w -> v c t <= v c s + w \/ cov c s t w \/ P' s t w) -> BI P' c'.
Proof.
  intros HL [B1 B2 B3 B4 B5] HP. assert (forall x, zval c' x = zval c x) as Fz by (intros; unfold LazyProofs.zval; by rewrite HL).
  split.
  - intros t x. rewrite HL, Fz. apply B1.
  - intros t. rewrite HL. apply (hord_ext (zval c)); [by intros|apply B2].
  - destruct B3 as [[? Hb]|Hb]; [left; split; [done|]; intros; by rewrite HL|right; intros s; rewrite HL; apply Hb].
  - intros s t w. rewrite !HL. intros A1 A2 A3.
    assert (cov c s t w -> cov c' s t w) as Hc.
    { unfold cov. rewrite !HL. intros [?|(x&?&?&?)]; [by left|right]. exists x. by rewrite Fz. }
    destruct (B4 s t w A1 A2 A3) as [?|[?|HP1]]; [by left|right; left; auto|].
    destruct (HP s t w A1 A2 A3 HP1) as [?|[?|?]]; auto.
  - intros s C. rewrite !HL. apply B5.
Qed.

(** An edge is inserted. *)
Lemma BI_ins (P P' : nat -> nat -> Z -> Prop) c m c1 t s cost b : VV None c m -> BI P c -> ins_case c c1 t s cost b -> sl s t cost b -> v c s < INFINITECOST ->
  (forall u t' w, P u t' w -> P' u t' w \/ u = s /\ t' = t /\ (b = true /\ w = cost \/ b = false /\ w = tc s t /\ 0 < w)) -> BI P' c1.
Proof using All.
  intros I B C Hsl Hvs HP.
  assert (forall w, (b = true /\ w = cost \/ b = false /\ w = tc s t /\ 0 < w) -> cost <= w) as Hcw.
  { intros w [[-> ->]|(->&->&Hw)]; [lia|]. apply Hest; [exact Hsl|done]. }
  assert (alltrue -> b = true) as Hatb.
  { intros Ha. destruct b; [done|]. cbn in Hsl. by apply Ha in Hsl. }
  pose proof (v_rng _ _ _ _ _ _ _ _ _ _ _ _ I) as Hrng.
  destruct C as [H1 H2|H1 H2 H3|H1 H2 H3 H4 H5 H6 H7 H8|H1 H2 H3 H4 H5 H6 H7 H8 H9 H10].
  - apply (BI_same P P' c); [done|done|]. intros u t' w _ _ _ Hp. destruct (HP u t' w Hp) as [?|(->&->&Hw)]; [by right; right|].
    left. specialize (Hcw w Hw). lia.
  - apply (BI_same P P' c); [done|done|]. intros u t' w _ _ _ Hp. destruct (HP u t' w Hp) as [?|(->&->&Hw)]; [by right; right|].
    right. left. left. specialize (Hcw w Hw). split; [lia|by left].
  - apply (BI_frame P P' c c1 t); try done.
    + intros x. rewrite H7. intros Hx. apply elem_of_cons in Hx as [->|Hx]; [rewrite H4; unfold LazyProofs.zval; cbn; lia|].
      rewrite H4. by apply (b_list _ _ _ _ B).
    + apply H8, (b_pq _ _ _ _ B).
    + intros Ha. destruct (b_mode _ _ _ _ B) as [[_ Hb]|Hb]; [by rewrite Hb in H3|]. exfalso.
      (* all edges true: the slot of t cannot be untrue *)
      destruct (decide (t = start)) as [->|Hts]; [rewrite (proj2 (v_start _ _ _ _ _ _ _ _ _ _ _ _ I)) in H3; done|].
      destruct (v_slot _ _ _ _ _ _ _ _ _ _ _ _ I t Hts) as (p&c0&_&_&_&Hs0&_); [pose proof (Hrng t); lia|].
      rewrite H3 in Hs0. cbn in Hs0. by apply Ha in Hs0.
    + intros u w Hv1 Hv2 Hv3 [?|[Hc|Hp]]; [by left| |].
      * right. left. unfold cov in *. rewrite (frame_v _ _ _ _ _ _ _ H1), H4, H5, H6, H3 in *.
        destruct Hc as [?|(x&Hx1&Hx2&Hx3)]; [by left|right]. exists x. rewrite (frame_zval _ _ _ _ _ _ _ H1), H7. split; [apply elem_of_cons; by right|done].
      * destruct (HP u t w Hp) as [?|(->&_&Hw)]; [by right; right|]. specialize (Hcw w Hw). right. left. right. exists (mkLE s cost b).
        rewrite (frame_zval _ _ _ _ _ _ _ H1), (frame_v _ _ _ _ _ _ _ H1), H7. split; [apply elem_of_cons; by left|]. split; [unfold LazyProofs.zval; cbn; lia|].
        destruct Hw as [[-> ->]|(->&->&?)]; [by left|right]. done.
    + intros u t' w Hn Hp. destruct (HP u t' w Hp) as [?|(_&?&_)]; done.
  - apply (BI_frame P P' c c1 t); try done.
    + intros x Hx. rewrite H4. destruct b; [rewrite H7 in Hx by done; by apply elem_of_nil in Hx|].
      destruct (decide (g c t < v c t)) as [Hlt|Hge].
      * destruct (H9 eq_refl Hlt) as (q&_&Hq). rewrite Hq in Hx. apply elem_of_cons in Hx as [->|Hx]; [unfold LazyProofs.zval; cbn; lia|].
        pose proof (b_list _ _ _ _ B t x Hx). lia.
      * rewrite H8 in Hx by (done || lia). destruct (ls_true c m None t I) as [_ ?]; [|lia]. intros Hl. rewrite Hl in Hx. by apply elem_of_nil in Hx.
    + apply H10, (b_pq _ _ _ _ B).
    + intros Ha. rewrite H6. auto.
    + intros u w Hv1 Hv2 Hv3 HB.
      assert (v c t <= v c u + w \/ (g c t <= v c u + w /\ cov c u t w) \/ P u t w) as HB'.
      { destruct HB as [?|[Hc|?]]; [by left| |by right; right]. right. left. split; [|done]. destruct Hc as [[? _]|(x&Hx1&Hx2&_)]; [done|].
        pose proof (b_list _ _ _ _ B t x Hx1). lia. }
      clear HB. destruct HB' as [?|[[Hgc Hc]|Hp]]; [by left| |].
      * destruct (decide (v c t <= v c u + w)) as [?|Hvt]; [by left|right; left].
        destruct b.
        -- left. rewrite H4, (frame_v _ _ _ _ _ _ _ H1). split; [lia|by left].
        -- assert (g c t < v c t) as Hlt by lia. destruct (H9 eq_refl Hlt) as (q&Hq1&Hq2). right.
           destruct Hc as [[_ Hc]|(x&Hx1&Hx2&Hx3)].
           ++ exists (mkLE q (g c t - v c q) (tr c t)). rewrite (frame_zval _ _ _ _ _ _ _ H1), (frame_v _ _ _ _ _ _ _ H1), Hq2.
              split; [apply elem_of_cons; by left|]. split; [unfold LazyProofs.zval; cbn; lia|]. cbn.
              destruct Hc as [?|(Hc&?&?)]; [by left|right]. split_and!; [congruence|done|done].
           ++ exists x. rewrite (frame_zval _ _ _ _ _ _ _ H1), (frame_v _ _ _ _ _ _ _ H1), Hq2. split; [apply elem_of_cons; by right|done].
      * destruct (HP u t w Hp) as [?|(->&_&Hw)]; [by right; right|]. specialize (Hcw w Hw). right. left. left.
        rewrite H4, H5, H6, (frame_v _ _ _ _ _ _ _ H1). split; [lia|]. destruct Hw as [[-> ->]|(->&->&?)]; [by left|right]. done.
    + intros u t' w Hn Hp. destruct (HP u t' w Hp) as [?|(_&?&_)]; done.
Qed.

Lemma BI_chain s ns c c' : echain e fwd N rep start goal eps iter false s ns c c' -> v c s < INFINITECOST -> BI (pmatch ns s) c -> BI nopend c'.
Proof using All.
  induction 1 as [c|t cost b ns c c1 c2 m m1 I I1 C Hsl HE IH]; intros Hv B.
  { apply (BI_same (pmatch [] s) nopend c c); [done|done|]. intros u t w _ _ _ (_&[H|(x&H&_)]); by apply elem_of_nil in H. }
  apply IH; [by rewrite (ins_case_v _ _ _ _ _ _ _ _ _ _ C)|].
  apply (BI_ins (pmatch ((t, cost, b) :: ns) s) _ c m c1 t s cost b); try done.
  intros u t' w (->&[H|(x&H&Hx)]); apply elem_of_cons in H as [[= -> -> ->]|H].
  - right. split_and!; try done. by left.
  - left. split; [done|]. by left.
  - right. split_and!; try done. right. destruct Hx. done.
  - left. split; [done|]. right. by exists x.
Qed.

(** A state is evaluated. *)
Lemma BI_eval c m s p c1 m1 c' : VV (Some s) c m -> VV None c1 m1 -> BI nopend c -> tr c s = false -> bp c s = Some p -> v c p < INFINITECOST ->
  gn_case c c1 s -> (tc p s <= 0 /\ c' = c1 \/ 0 < tc p s /\ sl p s (tc p s) true /\ ins_case c1 c' s p (tc p s) true) -> BI nopend c'.
Proof using All.
  intros I I1 B Ht Hb Hvp GN C.
  assert (frame c c1 s) as F by by destruct GN.
  assert (exists c0, (s, c0, false) ∈ nb p) as [c0 Hin].
  { assert (s <> start) as Hss. { intros ->. rewrite (proj2 (v_start _ _ _ _ _ _ _ _ _ _ _ _ I)) in Ht. done. }
    pose proof (v_rng _ _ _ _ _ _ _ _ _ _ _ _ I s). destruct (v_tr _ _ _ _ _ _ _ _ _ _ _ _ I s Ht) as [Hlt|[_ ?]]; [|done].
    destruct (v_slot _ _ _ _ _ _ _ _ _ _ _ _ I s Hss) as (p'&c0&Hp1&_&_&Hp2&_); [lia|]. rewrite Ht in Hp2. cbn in Hp2. exists c0. congruence. }
  set (P := fun u t w => u = p /\ t = s /\ w = tc p s /\ 0 < w).
  assert (BI P c1) as B1.
  { apply (BI_frame nopend P c c1 s); try done.
    - intros x Hx. destruct GN as [_ G2 G3 G4 G5 G6|y l l' _ G2 G3 G4 G5 G6 G7 G8].
      + rewrite G6 in Hx. by apply elem_of_nil in Hx.
      + rewrite G6 in Hx. destruct (leTrue y); [by apply elem_of_nil in Hx|]. rewrite G3.
        assert (x ∈ y :: l) as Hx' by (rewrite <- G7; apply elem_of_cons; by right). apply elem_of_list_lookup in Hx' as [i Hi].
        pose proof (b_pq _ _ _ _ B s) as Ho. rewrite G2 in Ho. by apply (hord_root (zval c) (y :: l) i y x Ho).
    - destruct GN as [_ G2 G3 G4 G5 G6|y l l' _ G2 G3 G4 G5 G6 G7 G8]; rewrite G6.
      + intros i x y _ Hx. by rewrite lookup_nil in Hx.
      + destruct (leTrue y); [intros i x z _ Hx; by rewrite lookup_nil in Hx|]. apply G8. rewrite <- G2. apply (b_pq _ _ _ _ B).
    - intros Ha. by apply Ha in Hin.
    - intros u w Hv1 Hv2 Hv3 [?|[Hc|[]]]; [by left|right]. destruct Hc as [[Hc1 [Hc2|(Hc2&Hc3&Hc4)]]|(x&Hx1&Hx2&Hx3)].
      + congruence.
      + right. split_and!; congruence.
      + left. destruct GN as [_ G2 G3 G4 G5 G6|y l l' _ G2 G3 G4 G5 G6 G7 G8]; [rewrite G2 in Hx1; by apply elem_of_nil in Hx1|].
        assert (zval c y <= zval c x) as Hyx.
        { rewrite G2 in Hx1. apply elem_of_list_lookup in Hx1 as [i Hi]. pose proof (b_pq _ _ _ _ B s) as Ho. rewrite G2 in Ho.
          by apply (hord_root (zval c) (y :: l) i y x Ho). }
        destruct (leTrue y) eqn:Ey.
        * left. rewrite G3, G5, (frame_v _ _ _ _ _ _ _ F). split; [lia|by left].
        * rewrite G2 in Hx1. rewrite <- G7 in Hx1. apply elem_of_cons in Hx1 as [->|Hx1].
          -- destruct Hx3 as [?|(Hx3&Hx4&Hx5)]; [congruence|]. left. rewrite G3, G4, (frame_v _ _ _ _ _ _ _ F). split; [done|right].
             split_and!; [by rewrite Hx3|done|done].
          -- right. exists x. rewrite G6, (frame_v _ _ _ _ _ _ _ F), (frame_zval _ _ _ _ _ _ _ F). done. }
  destruct C as [[Htc ->]|(Htc&Hsl&C)].
  - apply (BI_same P nopend c1); [done|done|]. intros u t w _ _ _ (_&_&->&?). lia.
  - apply (BI_ins P nopend c1 m1 c' s p (tc p s) true I1 B1 C Hsl); [by rewrite (frame_v _ _ _ _ _ _ _ F)|].
    intros u t w (->&->&->&_). right. split_and!; try done. by left.
Qed.

(** The key lemma. *)
Lemma key_lemma c m : VV None c m -> BI nopend c -> forall s C, srg (inflate eps) s C ->
  Z.min (v c s) (g c s) <= C \/ exists u k, m !! u = Some k /\ k0 k <= C + hh e fwd eps s.
Proof using All.
  intros I B s C R. pose proof (v_rng _ _ _ _ _ _ _ _ _ _ _ _ I) as Hrng. induction R as [|s t w C R IH Hsg Hin].
  - left. rewrite (proj1 (v_start _ _ _ _ _ _ _ _ _ _ _ _ I)). lia.
  - pose proof (toint_step E eps Heps (hr s) (hr t) w) as Hst.
    specialize (Hst (gl_heur _ _ _ _ HG s) (gl_heur _ _ _ _ HG t) (Hcons s t w Hin) (gl_heurE _ _ _ _ HG s) (gl_heurE _ _ _ _ HG t)).
    fold (hh e fwd eps s) in Hst. fold (hh e fwd eps t) in Hst.
    destruct IH as [Hle|(u&k&Hu&Hk)]; [|right; exists u, k; split; [done|lia]].
    destruct (decide (g c s < v c s)) as [Hlt|Hge]; [destruct (m !! s) as [k|] eqn:Em|].
    { right. exists s, k. split; [done|]. rewrite (v_key0 e fwd E N rep start goal HG Hz Hrep HsN HgN eps iter false Heps Hiter None c m s k I Em). cbn. lia. }
    all: left; assert (v c s <= C) as Hvc.
    { destruct (v_in _ _ _ _ _ _ _ _ _ _ _ _ I s Hlt) as [?|[[k Hk]|Hi]]; [done|congruence|].
      destruct (v_z _ _ _ _ _ _ _ _ _ _ _ _ I s Hi) as [_ Hcl]. by apply (b_bound _ _ _ _ B). }
    2:{ lia. }
    all: pose proof (inflate_ge eps w) as Hw; pose proof (Hrng t); pose proof (sedge_range e fwd E N rep start goal HG Hz Hrep HsN HgN s t w Hin) as [_ ?].
    all: destruct (decide (v c s < INFINITECOST)) as [Hfin|]; [|lia].
    all: destruct (b_edge _ _ _ _ B s t w Hfin Hsg Hin) as [?|[[[? _]|(x&Hx1&Hx2&_)]|[]]]; [lia|lia|].
    all: pose proof (b_list _ _ _ _ B t x Hx1); lia.
Qed.

(** A state is expanded. *)
Lemma BI_exp c m s c0 c1 : VV None c m -> BI nopend c -> (exists k, m !! s = Some k) -> (forall u k', m !! u = Some k' -> g c s + hh e fwd eps s <= k0 k') ->
  tr c s = true -> g c s < v c s -> (forall u, lkz c0 u = lkz c u) -> exp1 e fwd rep iter c0 c1 s -> BI (pmatch (nb s) s) c1.
Proof using All.
  intros I B [k Hk] Hmin Ht Hlt HL (X1&X2&X3&X4&X5&X6&X7&X8).
  assert (forall u, u <> s -> lkz c1 u = lkz c u) as Xo by (intros u Hu; by rewrite X1).
  rewrite HL in X2, X3, X5, X7, X8.
  pose proof (v_rng _ _ _ _ _ _ _ _ _ _ _ _ I) as Hrng.
  destruct (v_m _ _ _ _ _ _ _ _ _ _ _ _ I s ltac:(eauto)) as (_&Hncl&_&_).
  assert (forall u, v c1 u <= v c u) as Fv by (intros u; destruct (decide (u = s)) as [->|Hn]; [rewrite X2; lia|rewrite Xo by done; lia]).
  assert (forall u, g c1 u = g c u) as Fg by (intros u; destruct (decide (u = s)) as [->|Hn]; [by rewrite X3|by rewrite Xo]).
  assert (forall u, ls c1 u = ls c u) as Fl by (intros u; destruct (decide (u = s)) as [->|Hn]; [by rewrite X7|by rewrite Xo]).
  assert (forall u, tr c1 u = tr c u) as Ft by (intros u; destruct (decide (u = s)) as [->|Hn]; [by rewrite X8|by rewrite Xo]).
  assert (forall u, bp c1 u = bp c u) as Fb by (intros u; destruct (decide (u = s)) as [->|Hn]; [by rewrite X5|by rewrite Xo]).
  assert (forall t x, x ∈ ls c t -> zval c1 x = zval c x) as Fz.
  { intros t x Hx. unfold LazyProofs.zval. destruct (decide (lePar x = s)) as [He|Hn]; [|by rewrite Xo]. exfalso.
    destruct (b_mode _ _ _ _ B) as [[_ Hb]|Hb].
    - rewrite (v_true _ _ _ _ _ _ _ _ _ _ _ _ I t (Hb t)) in Hx. by apply elem_of_nil in Hx.
    - destruct (v_list _ _ _ _ _ _ _ _ _ _ _ _ I t x Hx) as (_&Hv&_). rewrite He in Hv. by apply Hb in Hv. }
  split.
  - intros t x. rewrite Fl, Fg. intros Hx. rewrite (Fz t x Hx). by apply (b_list _ _ _ _ B).
  - intros t. rewrite Fl. apply (hord_ext (zval c)); [|apply (b_pq _ _ _ _ B)]. intros x Hx. symmetry. by apply (Fz t).
  - destruct (b_mode _ _ _ _ B) as [[Ha Hb]|Hb]; [left; split; [done|]; intros t; by rewrite Ft|right].
    intros u. destruct (decide (u = s)) as [->|Hn]; [by intros|rewrite Xo by done; apply Hb].
  - intros u t w. destruct (decide (u = s)) as [->|Hn].
    + intros _ _ Hin. right. right. split; [done|]. exact Hin.
    + rewrite (Xo u Hn). intros A1 A2 A3. destruct (b_edge _ _ _ _ B u t w A1 A2 A3) as [?|[Hc|[]]].
      * left. specialize (Fv t). lia.
      * right. left. unfold cov in *. rewrite Fg, Ft, Fb, Fl, (Xo u Hn). destruct Hc as [?|(x&Hx1&Hx2&Hx3)]; [by left|right].
        exists x. rewrite (Fz t x Hx1). done.
  - intros u C. destruct (decide (u = s)) as [->|Hn]; [|rewrite Xo by done; apply (b_bound _ _ _ _ B)].
    intros _ R. rewrite X2. destruct (key_lemma c m I B s C R) as [?|(u&k'&Hu&Hk')]; [lia|]. specialize (Hmin u k' Hu). lia.
Qed.

Lemma BI_steps c m c' m' : isteps e fwd N rep start goal eps iter false c m c' m' -> BI nopend c -> BI nopend c'.
Proof using All.
  induction 1 as [c m I|c m c1 m1 c2 m2 I S1 HS IH]; intros B; [done|]. apply IH. destruct S1 as [s c0 c3 m3 H1 H2 H3 H4 H5 H6 H7 H8 H9 H10 H11|s c0 m0 p c3 m3 H1 H2 H3 H4 H5 H6 H7 H8 H9].
  - apply (BI_chain s (nb s) c3 c1 H11).
    + pose proof (v_rng _ _ _ _ _ _ _ _ _ _ _ _ I s). destruct H8 as (_&->&_). rewrite H7. lia.
    + by apply (BI_exp c m s c0 c3 I B).
  - apply (BI_eval c0 m0 s p c3 m3 c1); try done; rewrite ?H3; try done. by apply (BI_same nopend nopend c).
Qed.
Lemma bound_at_end c m : VV None c m -> BI nopend c -> at_end e fwd rep goal c m -> forall C, srg (inflate eps) goal C -> Z.min (v c goal) (g c goal) <= C.
Proof using All.
  intros I B [_ Hat] C R. destruct (key_lemma c m I B goal C R) as [?|(u&k&Hu&Hk)]; [done|].
  rewrite (hh_goal e fwd E N rep start goal HG Hz Hrep HsN HgN eps iter false Heps Hiter) in Hk. pose proof (v_rng _ _ _ _ _ _ _ _ _ _ _ _ I goal).
  destruct (Hat u k Hu); lia.
Qed.
End iter.
End run.
