(** MHA*: the invariant of planner objects, and replan. *)
From Coq Require Import ZifyBool ZifyNat QArith Qround Lqa.
From Verif Require Import Base KeyModel HeapModel HeapProofs AngleModel AngleProofs AraModel AraSpec AraProofs MhaModel MhaSpec MhaProofs.
Local Open Scope Z_scope.

Record PI (n k : nat) (p : mha) : Prop := {
  pi_n : hN p = n;
  pi_call : 0 <= hCall p;
  pi_open : exists ms, Forall2 rp (mOpen (hC p)) ms /\ length ms = S n /\ (forall i m s x, ms !! i = Some m -> m !! s = Some x -> is_Some (mSt (hC p) !! s));
  pi_dom : forall s a, mSt (hC p) !! s = Some a -> (s < k)%nat /\ mCall a <= hCall p;
  pi_start : forall s, hStart p = Some s -> is_Some (mSt (hC p) !! s);
  pi_goal : forall s, hGoal p = Some s -> is_Some (mSt (hC p) !! s)
}.
Lemma PI_new n k : PI n k (new_mha n).
Proof.
  split; try done. exists (replicate (S n) ∅). split; [|split; [apply replicate_length|]].
  - cbn [new_mha hC mOpen]. apply Forall2_replicate. apply (new_heap_rep ckeyops). done.
  - intros i m s x Hm Hx. apply lookup_replicate in Hm as [-> _]. by rewrite lookup_empty in Hx.
Qed.
Lemma PI_get e n p s c : PI n (meSize e) p -> get_state e (hN p) (hC p) s = Ok c ->
  (exists ms, Forall2 rp (mOpen c) ms /\ length ms = S n /\ (forall i m s x, ms !! i = Some m -> m !! s = Some x -> is_Some (mSt c !! s))) /\
  (forall u a, mSt c !! u = Some a -> (u < meSize e)%nat /\ mCall a <= hCall p) /\ (forall u, is_Some (mSt (hC p) !! u) -> is_Some (mSt c !! u)) /\ is_Some (mSt c !! s).
Proof.
  intros P. unfold get_state. destruct (Nat.leb_spec (meSize e) s) as [|Hs]; [done|].
  destruct (mSt (hC p) !! s) as [a|] eqn:Ea; intros [= <-].
  { split; [apply P|]. split; [apply P|]. split; [done|eauto]. }
  destruct (pi_open _ _ _ P) as (ms&HR&Hlen&Hin). split_and!.
  - exists ms. split_and!; try done.
    + unfold set_mst. cbn [mOpen]. apply clear_rep; [done|]. intros i m Hm. destruct (m !! s) as [x|] eqn:Ex; [|done]. destruct (Hin i m s x Hm Ex). congruence.
    + intros i m u x Hm Hx. unfold set_mst, clear_indices. cbn [mSt]. destruct (decide (u = s)) as [->|]; [rewrite lookup_insert; eauto|rewrite lookup_insert_ne by done; eauto].
  - intros u b. unfold set_mst, clear_indices. cbn [mSt]. destruct (decide (u = s)) as [->|]; [rewrite lookup_insert|rewrite lookup_insert_ne by done; apply (pi_dom _ _ _ P)].
    intros [= <-]. cbn [mCall]. pose proof (pi_call _ _ _ P). lia.
  - intros u Hu. unfold set_mst, clear_indices. cbn [mSt]. destruct (decide (u = s)) as [->|]; [rewrite lookup_insert; eauto|by rewrite lookup_insert_ne].
  - unfold set_mst. cbn [mSt]. rewrite lookup_insert. eauto.
Qed.

Lemma replan_spec e n p par clk con M s g : PI n (meSize e) p -> good_menv n (qInit par) e -> hStart p = Some s -> hGoal p = Some g ->
  check_params (hEps2 p) (hMax p) par = true -> (con = true -> consistent e g) -> (forall s t x, (t, x) ∈ meSuccs e s -> x <= M) -> 0 <= M ->
  exists r p' ms v, mreplan e clk p par = Ok (r, p') /\ PI n (meSize e) p' /\ (1 <= qInit par)%Q /\ (1 <= hEps2 p)%Q /\
    ST e n (qInit par) (hCall p + 1) s g con M (hC p') ms v (mget_n_expands p') /\ hEps2 p' = hEps2 p /\
    (qFirst par = false -> 0 < hMax p -> mget_n_expands p' <= hMax p - 1 + Z.max 1 (Z.of_nat n)) /\
    match r with
    | None => mget_eps p' = inject_Z INFINITECOST /\ (ms !! 0%nat = Some ∅ \/ reached_limit clk par (hMax p))
    | Some (path, cost) => mget_eps p' = (qInit par * hEps2 p)%Q /\ found e n (hEps2 p) (hCall p + 1) g (hC p') ms /\
        let G := mG (lkm e n (hCall p + 1) (hC p') g) in
        ((G < INFINITECOST /\ cost = G /\ exists C, route (fun x => x) (medge e) path s g C /\ C <= cost) \/
         (G = INFINITECOST /\ path = [g] /\ cost = 0 /\ g <> s))
    end.
Proof.
  intros P HG Hs Hg Hchk Hcon HM HM0.
  assert (1 <= qInit par /\ 1 <= hEps2 p)%Q as [H1 H2].
  { unfold check_params in Hchk. destruct (Qle_bool 1 (qInit par)) eqn:Q1; [|done]. cbn [negb] in Hchk. destruct (negb (Qle_bool (qFinal par) (qInit par))); [done|].
    destruct (Qle_bool (qDec par) 0); [done|]. destruct (Qle_bool 1 (hEps2 p)) eqn:Q2; [|done]. by apply Qle_bool_iff in Q1, Q2. }
  pose proof (pi_call _ _ _ P) as Hcall. pose proof (pi_n _ _ _ P) as Hn.
  destruct (init_spec e n (qInit par) (hCall p + 1) s g con HG H1 ltac:(lia) M HM (hC p)) as (c0&c1&c2&c4&ms&v&E0&E1&E2&E3&E4&S0).
  { split.
    - destruct (pi_open _ _ _ P) as (ms&?&?&_). eauto.
    - intros u a Ha. destruct (pi_dom _ _ _ P u a Ha). split; [done|lia]. }
  { by apply (pi_start _ _ _ P). } { by apply (pi_goal _ _ _ P). }
  destruct (mha_loop_spec e n (qInit par) (hEps2 p) (hCall p + 1) s g con HG H1 ltac:(lia) Hcon M HM HM0 clk par (hMax p)
    (S (S (2 * meSize e))) c4 ms v 0 0%nat S0 ltac:(lia)) as (b&c&nexp&ms'&v'&E5&S5&F5&L5&X5).
  pose proof (st_mi _ _ _ _ _ _ _ _ _ _ _ _ S5) as I5.
  assert (forall sat, PI n (meSize e) (mkMha (hN p) c (hCall p + 1) (hStart p) (hGoal p) par (hEps2 p) (hMax p) sat nexp)) as HP.
  { intros sat. split; cbn [hN hCall hC hStart hGoal]; try done; try lia.
    - exists ms'. split; [apply I5|]. split; [apply I5|]. intros i m u x Hm Hx.
      destruct (mi_in _ _ _ _ _ _ _ _ _ _ _ I5 i m u x Hm Hx) as (_&_&_&_&Hfin&_). destruct (fin_live _ _ _ con _ _ Hfin) as (a&->&_). eauto.
    - apply I5.
    - intros u Hu. assert (u = s) as -> by congruence. assert (live (hCall p + 1) c s) as (a&->&_); [|eauto]. apply (fin_live e n _ con). rewrite (proj1 (mi_start _ _ _ _ _ _ _ _ _ _ _ I5)). done.
    - intros u Hu. assert (u = g) as -> by congruence. destruct (mi_goal _ _ _ _ _ _ _ _ _ _ _ I5) as (a&->&_). eauto. }
  unfold mreplan. rewrite Hchk, Hn, E0. cbn [negb obind]. rewrite Hg, Hs, E1. cbn [obind]. rewrite E2. cbn [obind]. rewrite E3. cbn [obind].
  cbv zeta in E4. rewrite E4. cbn [obind]. rewrite E5. cbn [obind fst snd]. rewrite Hn, Hs, Hg in HP. destruct b.
  - destruct (extract_path_spec e n (qInit par) (hCall p + 1) s g con HG ltac:(lia) M HM c ms' v' None I5) as (path&cost&E6&H6). rewrite E6. cbn [obind].
    eexists _, _, ms', v'. split; [done|]. cbn [hC mget_n_expands hExp hEps2]. split_and!; try done; [|by apply F5]. intros Hq Hpos. apply X5; try done. lia.
  - eexists _, _, ms', v'. split; [done|]. cbn [hC mget_n_expands hExp hEps2]. split_and!; try done; [|by apply L5]. intros Hq Hpos. apply X5; try done. lia.
Qed.

Lemma mreplan_PI e n p par clk r p' : PI n (meSize e) p -> good_menv n (qInit par) e -> mreplan e clk p par = Ok (r, p') -> PI n (meSize e) p'.
Proof.
  intros P HG HE. destruct (check_params (hEps2 p) (hMax p) par) eqn:Hchk; [|unfold mreplan in HE; rewrite Hchk in HE; cbn [negb] in HE; injection HE as <- <-; done].
  destruct (hGoal p) as [g|] eqn:Hg; [destruct (hStart p) as [s|] eqn:Hs|].
  - destruct (replan_spec e n p par clk false INFINITECOST s g P HG Hs Hg Hchk) as (r0&p0&ms&v&E&P'&_); try done.
    { intros u t x Hx. destruct (gm_edge _ _ _ HG u t x Hx). lia. }
    rewrite E in HE. injection HE as <- <-. done.
  - exfalso. unfold mreplan in HE. rewrite Hchk, Hg, Hs in HE. cbn [negb] in HE. by destruct (clear_open _ _).
  - exfalso. unfold mreplan in HE. rewrite Hchk, Hg in HE. cbn [negb] in HE. by destruct (clear_open _ _).
Qed.
Lemma mreach_PI n k p : mreach n k p -> PI n k p.
Proof.
  intros H. induction H as [k|k k' p H IH Hk|e p s p' H IH HE|e p s p' H IH HE|k p w H IH|k p x H IH|e clk p par r p' H IH HG HE].
  - apply PI_new.
  - destruct IH. split; try done. intros s a Ha. destruct (pi_dom0 s a Ha). lia.
  - unfold mset_start in HE. destruct (get_state e (hN p) (hC p) s) as [c| | |] eqn:Ec; try done. cbn [obind] in HE. injection HE as <-.
    destruct (PI_get e n p s c IH Ec) as (A&B&D&F). split; cbn [hN hC hCall hStart hGoal]; try apply IH; try done.
    + by intros u [= <-].
    + intros u Hu. by apply D, (pi_goal _ _ _ IH).
  - unfold mset_goal in HE. destruct (get_state e (hN p) (hC p) s) as [c| | |] eqn:Ec; try done. cbn [obind] in HE. injection HE as <-.
    destruct (PI_get e n p s c IH Ec) as (A&B&D&F). split; cbn [hN hC hCall hStart hGoal]; try apply IH; try done.
    + intros u Hu. by apply D, (pi_start _ _ _ IH).
    + by intros u [= <-].
  - destruct IH. by split.
  - destruct IH. by split.
  - by apply (mreplan_PI e n p par clk r p').
Qed.

(** * Consequences of success and failure *)
Section end_.
Context (e : menv) (n : nat) (eps w : Q) (call : Z) (s g : nat) (con : bool) (M : Z).
Context (HG : good_menv n eps e) (Heps : (1 <= eps)%Q) (Hw : (1 <= w)%Q) (Hcall : 1 <= call) (Hcon : con = true -> consistent e g).
Context (HM : forall s t x, (t, x) ∈ meSuccs e s -> x <= M) (HM0 : 0 <= M).
Lemma route_nonneg l a b C : route (inflate eps) (medge e) l a b C -> 0 <= C.
Proof.
  intros H. induction H as [a|a b l z x C Hx H IH]; [lia|]. pose proof (inflate_ge eps x). destruct (gm_edge _ _ _ HG a b x Hx). lia.
Qed.
Lemma found_bound c ms v nexp : ST e n eps call s g con M c ms v nexp -> con = true -> found e n w call g c ms ->
  forall l C, route (inflate eps) (medge e) l s g C -> (inject_Z (mG (lkm e n call c g)) <= w * inject_Z C)%Q.
Proof.
  intros S Hc (f&f0&m&u&k&Hm&Hk&Hmin&->&Hgf&Hf&_) l C Hr. pose proof (st_mi _ _ _ _ _ _ _ _ _ _ _ _ S) as I. pose proof (route_nonneg l s g C Hr) as HC.
  assert (tk e eps 0 g = 0) as Ht. { destruct (key_val e n eps con HG Heps (lkm e n call c g) g 0) as (_&Ht0&Ht1); [apply I|apply I|lia|]. rewrite (proj1 (Hcon Hc)) in Ht1.
    assert (inject_Z (tk e eps 0 g) <= inject_Z 0)%Q as Ht2 by (change (inject_Z 0) with 0%Q in *; lra). rewrite <- Zle_Qle in Ht2. lia. }
  assert (forall z, 0 <= z -> z <= C -> (w * inject_Z z <= w * inject_Z C)%Q) as Hmul.
  { intros z Hz Hle. rewrite Zle_Qle in Hle. rewrite (Qmult_comm w), (Qmult_comm w (inject_Z C)). apply Qmult_le_compat_r; [done|lra]. }
  assert (forall z, 0 <= z -> (inject_Z z <= w * inject_Z z)%Q) as Hone.
  { intros z Hz. rewrite Zle_Qle in Hz. rewrite <- (Qmult_1_l (inject_Z z)) at 1. by apply Qmult_le_compat_r. }
  pose proof (mi_g _ _ _ _ _ _ _ _ _ _ _ I g) as Hgr.
  destruct (anchor_min e n eps call s g con HG Heps Hcon c ms v m u k g l C I Hc Hm Hmin Hk Hr) as [Hv|Hk0].
  - rewrite (st_goal _ _ _ _ _ _ _ _ _ _ _ _ S) in Hv. eapply Qle_trans; [|apply Hmul; [exact HC|lia]]. eapply Qle_trans; [|by apply Hone]. rewrite <- Zle_Qle. lia.
  - rewrite Ht in Hk0. destruct Hf as [->|Hf].
    + eapply Qle_trans; [|apply Hmul; [exact HC|lia]]. eapply Qle_trans; [|by apply Hone]. rewrite <- Zle_Qle. lia.
    + rewrite Zle_Qle in Hgf. eapply Qle_trans; [exact Hgf|]. eapply Qle_trans; [exact Hf|]. destruct (mi_in _ _ _ _ _ _ _ _ _ _ _ I 0%nat m u k Hm Hk) as (_&_&_&?&_).
      pose proof (mi_g _ _ _ _ _ _ _ _ _ _ _ I u). apply Hmul; lia.
Qed.
Context (H : Z) (HH : forall i s, (i <= n)%nat -> meH e i s <= H) (HH0 : 0 <= H).
Context (Hsmall : (inject_Z (2 * Z.of_nat (meSize e) * M) + eps * inject_Z H < inject_Z INFINITECOST)%Q).
Lemma found_fin c ms v nexp : ST e n eps call s g con M c ms v nexp -> found e n w call g c ms -> mG (lkm e n call c g) < INFINITECOST.
Proof.
  intros S (f&f0&m&u&k&_&_&_&_&_&_&Hf). pose proof (st_mi _ _ _ _ _ _ _ _ _ _ _ _ S) as I. pose proof (mi_g _ _ _ _ _ _ _ _ _ _ _ I g) as Hgr.
  destruct (Z_lt_ge_dec (mG (lkm e n call c g)) INFINITECOST) as [?|Hge]; [done|]. exfalso.
  destruct Hf as (i&mi&x&kx&Hmi&Hkx&Hinf&Hi); [lia|]. pose proof (st_k _ _ _ _ _ _ _ _ _ _ _ _ S i mi x kx Hmi Hkx) as Hb.
  pose proof (cnt_le e n call con c). pose proof (st_cnt _ _ _ _ _ _ _ _ _ _ _ _ S).
  destruct (key_val e n eps con HG Heps (lkm e n call c x) x i) as (_&_&Ht); [apply I|apply I|done|].
  pose proof (HH i x Hi) as Hhx. rewrite Zle_Qle in Hhx.
  assert (eps * inject_Z (meH e i x) <= eps * inject_Z H)%Q as Hm. { rewrite !(Qmult_comm eps). apply Qmult_le_compat_r; [done|lra]. }
  assert (INFINITECOST <= 2 * Z.of_nat (meSize e) * M + tk e eps i x) as Hz by nia. rewrite Zle_Qle, inject_Z_plus in Hz. lra.
Qed.
Lemma exhausted c ms v nexp : ST e n eps call s g con M c ms v nexp -> ms !! 0%nat = Some ∅ -> forall l C, ~ route (fun x => x) (medge e) l s g C.
Proof.
  intros S Hm. pose proof (st_mi _ _ _ _ _ _ _ _ _ _ _ _ S) as I.
  pose proof (cnt_le e n call con c). pose proof (st_cnt _ _ _ _ _ _ _ _ _ _ _ _ S).
  assert (2 * Z.of_nat (meSize e) * M < INFINITECOST) as HB.
  { rewrite Zlt_Qlt. assert (0 <= eps * inject_Z H)%Q; [|lra]. apply Qmult_le_0_compat; [lra|]. by rewrite Zle_Qle in HH0. }
  assert (forall l a C, route (fun x => x) (medge e) l a g C -> mG (lkm e n call c a) < INFINITECOST -> False) as HX.
  { intros l a C Hr. remember g as z eqn:Hz in Hr. induction Hr as [a|a b l z x C Hx Hr IH]; intros Hfin.
    - subst a. destruct (mi_open _ _ _ _ _ _ _ _ _ _ _ I g) as [(m&Hm'&k&Hk)|[Hv|Ha]].
      + rewrite Hm in Hm'. injection Hm' as <-. by rewrite lookup_empty in Hk.
      + rewrite (st_goal _ _ _ _ _ _ _ _ _ _ _ _ S) in Hv. lia.
      + assert (v g < INFINITECOST) as Hv by (apply (mi_flag _ _ _ _ _ _ _ _ _ _ _ I); by left). rewrite (st_goal _ _ _ _ _ _ _ _ _ _ _ _ S) in Hv. lia.
    - assert (v a < INFINITECOST) as Hv.
      { destruct (mi_open _ _ _ _ _ _ _ _ _ _ _ I a) as [(m&Hm'&k&Hk)|[Hv|Ha]]; [|lia|apply (mi_flag _ _ _ _ _ _ _ _ _ _ _ I); by left].
        rewrite Hm in Hm'. injection Hm' as <-. by rewrite lookup_empty in Hk. }
      destruct (mi_clo _ _ _ _ _ _ _ _ _ _ _ I a b x Hv Hx) as [[]|Hgb]. pose proof (st_v _ _ _ _ _ _ _ _ _ _ _ _ S a Hv). pose proof (HM a b x Hx).
      apply IH; [done|]. nia. }
  intros l C Hr. apply (HX l s C Hr). rewrite (proj1 (mi_start _ _ _ _ _ _ _ _ _ _ _ I)). done.
Qed.
End end_.

Lemma unlimited_spec p par clk : unlimited p par clk -> ~ reached_limit clk par (hMax p).
Proof.
  intros Hu (i&nexp&Hx&Hl). unfold time_limit_reached in Hl. destruct Hu as [Hq|[Ht Hm]]; [by rewrite Hq in Hl|]. destruct (qFirst par); [done|].
  assert (negb (Qle_bool (qTime par) 0) && negb (clk i) = false) as Hf.
  { destruct Ht as [->|Ht]; [by rewrite andb_false_r|]. apply Qle_bool_iff in Ht. by rewrite Ht. }
  rewrite Hf in Hl. destruct (hMax p >? 0) eqn:Hg; [lia|done].
Qed.
(** Inflated costs against real multiples of the cost. *)
Lemma inflate_route e n eps l a b C : good_menv n eps e -> (1 <= eps)%Q -> route (fun x => x) (medge e) l a b C ->
  exists C2, route (inflate eps) (medge e) l a b C2 /\ (inject_Z C2 <= eps * inject_Z C + inject_Z (Z.of_nat (length l - 1)))%Q /\ (forall k, (eps == inject_Z k)%Q -> C2 = k * C).
Proof.
  intros HG Heps H. induction H as [a|a b l z x C Hx H IH].
  - exists 0. split; [apply route_one|]. split; [cbn [length Nat.sub]; change (inject_Z (Z.of_nat 0)) with 0%Q; change (inject_Z 0) with 0%Q; lra|lia].
  - destruct IH as (C2&H2&Hle&Hi). destruct (gm_edge _ _ _ HG a b x Hx) as [_ Hx0]. exists (inflate eps x + C2).
    split; [by apply route_cons|]. assert (inject_Z x <= eps * inject_Z x)%Q as Hge.
    { rewrite <- (Qmult_1_l (inject_Z x)) at 1. apply Qmult_le_compat_r; [done|]. destruct Hx0 as [Hx0 _]. by rewrite Zle_Qle in Hx0. }
    split.
    + assert (inject_Z (inflate eps x) <= eps * inject_Z x + 1)%Q as Hinf.
      { unfold inflate. pose proof (Qceiling_lt (eps * inject_Z x)) as Hc. destruct (Z.max_spec x (Qceiling (eps * inject_Z x))) as [[_ ->]|[_ ->]]; [|lra].
        replace (Qceiling (eps * inject_Z x)) with (Qceiling (eps * inject_Z x) - 1 + 1) by lia. rewrite inject_Z_plus. change (inject_Z 1) with 1%Q. lra. }
      replace (length (a :: b :: l) - 1)%nat with (S (length (b :: l) - 1)) by (cbn [length]; lia). rewrite Nat2Z.inj_succ. unfold Z.succ. rewrite !inject_Z_plus. change (inject_Z 1) with 1%Q. lra.
    + intros k Hk. rewrite (Hi k Hk). assert (inflate eps x = k * x); [|lia]. unfold inflate.
      assert (Qceiling (eps * inject_Z x) = k * x) as ->. { rewrite (Qceiling_comp _ (inject_Z (k * x))); [apply Qceiling_Z|]. rewrite Hk, inject_Z_mult. reflexivity. }
      assert (1 <= k) by (rewrite Zle_Qle, <- Hk; exact Heps). nia.
Qed.
