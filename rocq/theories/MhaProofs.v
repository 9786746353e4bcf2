From Coq Require Import ZifyBool ZifyNat QArith Qround Lqa.
From Verif Require Import Base KeyModel HeapModel HeapProofs AngleModel AngleProofs AraModel AraSpec AraProofs MhaModel MhaSpec.
Local Open Scope Z_scope.

Lemma map_size_lt (m : gmap nat ckey) N : (forall s k, m !! s = Some k -> (s < N)%nat) -> (size m <= N)%nat.
Proof.
  intros H. rewrite <- (size_dom (D := gset nat)). rewrite <- (size_set_seq (C := gset nat) 0 N). apply subseteq_size.
  intros s Hs. apply elem_of_dom in Hs as [k Hk]. apply elem_of_set_seq. specialize (H s k Hk). lia.
Qed.
Definition rp (h : heap ckey) (m : gmap nat ckey) : Prop := rep h m /\ ord ckeyops 1 h.
Lemma rp_set h m t k : rp h m -> Z.of_nat (size m) <> HEAPSIZE - 1 ->
  exists h', (if inheap h t then updateheap ckeyops h t k else insertheap ckeyops h t k) = Ok h' /\ rp h' (<[t := k]> m).
Proof.
  intros [R O] Hn. rewrite (inheap_spec h m t R). case_bool_decide as Hb.
  - destruct Hb as [k' Hk']. destruct (updateheap_spec ckeyops ckeylaws h m t k' k R O Hk') as (h'&?&?&?). exists h'. done.
  - destruct (insertheap_spec ckeyops ckeylaws h m t k R O) as (h'&?&?&?); [|done|exists h'; done].
    destruct (m !! t); [|done]. exfalso. apply Hb. eauto.
Qed.

(** * Lists of heaps *)
Lemma Forall2_set {A B} (P : A -> B -> Prop) l k i x y : Forall2 P l k -> P x y -> Forall2 P (<[i := x]> l) (<[i := y]> k).
Proof. intros H Hxy. revert i. induction H; intros [|i]; simpl; constructor; auto. Qed.
Lemma Forall2_get {A B} (P : A -> B -> Prop) l k i : Forall2 P l k -> (i < length k)%nat ->
  exists x y, l !! i = Some x /\ k !! i = Some y /\ P x y.
Proof.
  intros H Hi. destruct (lookup_lt_is_Some_2 k i Hi) as [y Hy]. destruct (Forall2_lookup_r _ _ _ _ _ H Hy) as (x&Hx&HP). eauto.
Qed.

Section run.
Context (e : menv) (n : nat) (eps w : Q) (call : Z) (start goal : nat) (con : bool).
Context (HG : good_menv n eps e) (Heps : (1 <= eps)%Q) (Hcall : 1 <= call) (Hcon : con = true -> consistent e goal).

Definition fresh (s : nat) : mstate := mkM call INFINITECOST None false false (heurs e n s).
Definition lkm (c : mcore) (s : nat) : mstate :=
  match mSt c !! s with Some a => if mCall a =? call then a else fresh s | None => fresh s end.
Definition live (c : mcore) (s : nat) : Prop := exists a, mSt c !! s = Some a /\ mCall a = call.
Notation g c s := (mG (lkm c s)).
Notation bp c s := (mBp (lkm c s)).
Notation anc c s := (mAnc (lkm c s)).
Notation add c s := (mAdd (lkm c s)).
Definition tk (i s : nat) : Z := toint (eps * inject_Z (meH e i s)).

Lemma live_dec c s : live c s \/ ~ live c s.
Proof. unfold live. destruct (mSt c !! s) as [a|]; [|right; intros (a&?&_); done]. destruct (Z.eq_dec (mCall a) call); [left; eauto|right; intros (b&Hb&?); congruence]. Qed.
Lemma live_lk c s : live c s -> mSt c !! s = Some (lkm c s) /\ mCall (lkm c s) = call.
Proof. intros (a&Ha&Hc). unfold lkm. rewrite Ha, Hc, Z.eqb_refl. done. Qed.
Lemma live_rdm c s : live c s -> rdm c s = Ok (lkm c s).
Proof. intros H. destruct (live_lk c s H) as [H1 H2]. unfold rdm. rewrite H1, H2. replace (call =? 0) with false by lia. done. Qed.
Lemma lkm_call c s : mCall (lkm c s) = call.
Proof. unfold lkm. destruct (mSt c !! s) as [a|]; [|done]. destruct (Z.eqb_spec (mCall a) call); done. Qed.
Lemma dead_lk c s : ~ live c s -> lkm c s = fresh s.
Proof. intros H. unfold lkm. destruct (mSt c !! s) as [a|] eqn:Ea; [|done]. destruct (Z.eqb_spec (mCall a) call); [|done]. exfalso. apply H. by exists a. Qed.
Lemma fin_live c s : g c s < INFINITECOST -> live c s.
Proof. intros H. unfold lkm in H. destruct (mSt c !! s) as [a|] eqn:Ea; [|simpl in H; lia]. destruct (Z.eqb_spec (mCall a) call); [|simpl in H; lia]. by exists a. Qed.
Lemma lkm_set c t a s : mCall a = call -> lkm (set_mst c t a) s = if decide (s = t) then a else lkm c s.
Proof.
  intros Ha. unfold lkm, set_mst. cbn [mSt]. destruct (decide (s = t)) as [->|Hs].
  - rewrite lookup_insert, Ha, Z.eqb_refl. done.
  - by rewrite lookup_insert_ne.
Qed.
Lemma live_set c t a s : mCall a = call -> live c s \/ s = t -> live (set_mst c t a) s.
Proof.
  intros Ha H. unfold live, set_mst. cbn [mSt]. destruct (decide (s = t)) as [->|Hs].
  - exists a. rewrite lookup_insert. done.
  - rewrite lookup_insert_ne by done. destruct H as [(b&?&?)|?]; [by exists b|done].
Qed.
Lemma lkm_heap c i h s : lkm (set_heap c i h) s = lkm c s. Proof. done. Qed.

Inductive chain (c : mcore) : nat -> list nat -> Prop :=
| ch_one s : bp c s = None -> chain c s [s]
| ch_step s p l : bp c s = Some p -> chain c p l -> chain c s (s :: l).

Definition covered (pend : option (nat * list (nat * Z))) (s t : nat) (x : Z) : Prop :=
  match pend with Some (s', ns) => s = s' /\ (t, x) ∈ ns | None => False end.

Record MI (c : mcore) (ms : list (gmap nat ckey)) (v : nat -> Z) (pend : option (nat * list (nat * Z))) : Prop := {
  mi_dom : forall s a, mSt c !! s = Some a -> (s < meSize e)%nat /\ mCall a <= call;
  mi_hs : forall s, mHs (lkm c s) = heurs e n s;
  mi_len : length ms = S n;
  mi_rep : Forall2 rp (mOpen c) ms;
  mi_in : forall i m s k, ms !! i = Some m -> m !! s = Some k ->
    anc c s = false /\ (i <> 0%nat -> add c s = false) /\ k1 k = 0 /\ g c s <= k0 k /\ g c s < INFINITECOST /\
    (i = 0%nat -> k0 k = g c s + tk 0 s);
  mi_start : g c start = 0 /\ bp c start = None;
  mi_goal : live c goal;
  mi_g : forall s, 0 <= g c s <= INFINITECOST;
  mi_bp : forall s p, bp c s = Some p -> g c s < INFINITECOST /\ exists x, (s, x) ∈ meSuccs e p /\ g c p + x <= g c s;
  mi_some : forall s, g c s < INFINITECOST -> s = start \/ is_Some (bp c s);
  mi_chain : forall s, g c s < INFINITECOST -> exists l, chain c s l;
  mi_v : forall s, g c s <= v s;
  mi_clo : forall s t x, v s < INFINITECOST -> (t, x) ∈ meSuccs e s -> covered pend s t x \/ g c t <= v s + x;
  mi_open : forall s, (exists m, ms !! 0%nat = Some m /\ is_Some (m !! s)) \/ v s = g c s \/ anc c s = true;
  mi_flag : forall s, v s < INFINITECOST <-> anc c s = true \/ add c s = true;
  mi_bound : forall s l C, con = true -> anc c s = true -> route (inflate eps) (medge e) l start s C -> v s <= C
}.

Lemma mi_live_dom c ms v pend s : MI c ms v pend -> live c s -> (s < meSize e)%nat.
Proof. intros I (a&Ha&_). by destruct (mi_dom _ _ _ _ I s a Ha). Qed.
Lemma mi_room c ms v pend i m : MI c ms v pend -> ms !! i = Some m -> Z.of_nat (size m) <> HEAPSIZE - 1.
Proof.
  intros I Hm. assert (size m <= meSize e)%nat.
  { apply map_size_lt. intros s k Hk. apply (mi_live_dom _ _ _ _ _ I). apply fin_live. by destruct (mi_in _ _ _ _ I i m s k Hm Hk) as (_&_&_&_&?&_). }
  pose proof (gm_size _ _ _ HG). unfold HEAPSIZE. lia.
Qed.
Lemma heurs_at s i : (i <= n)%nat -> heurs e n s !! i = Some (meH e i s).
Proof. intros Hi. unfold heurs. rewrite list_lookup_fmap, lookup_seq_lt by lia. simpl. done. Qed.

(** * Priorities *)
Lemma key_val a s i : mHs a = heurs e n s -> 0 <= mG a <= INFINITECOST -> (i <= n)%nat ->
  compute_key eps a i = Ok (mG a + tk i s) /\ 0 <= tk i s /\ (inject_Z (tk i s) <= eps * inject_Z (meH e i s))%Q.
Proof.
  intros Hh Hg Hi. unfold compute_key. rewrite Hh, (heurs_at s i Hi).
  pose proof (gm_heur _ _ _ HG i s Hi) as H0. pose proof (gm_fits _ _ _ HG i s Hi) as H1.
  assert (0 <= inject_Z (meH e i s))%Q as H0' by (rewrite <- (Zle_Qle 0); done).
  assert (0 <= eps * inject_Z (meH e i s))%Q as H2 by nra.
  assert (0 <= inject_Z (mG a))%Q as Hg0 by (rewrite <- (Zle_Qle 0); lia).
  assert (inject_Z (mG a) <= inject_Z INFINITECOST)%Q as Hg1 by (rewrite <- Zle_Qle; lia).
  assert (tk i s = Qfloor (eps * inject_Z (meH e i s)) /\ 0 <= tk i s) as [Ht Ht0].
  { unfold tk. destruct (toint_nonneg eps eps) with (h := meH e i s) as [E1 E2]; [split; lra|done| |].
    - apply (Qlt_trans _ _ _ H1). done.
    - rewrite E1. split; [done|]. rewrite <- E1. lia. }
  split_and!; [|done|rewrite Ht; apply Qfloor_le]. f_equal.
  assert (Qfloor (inject_Z (mG a) + eps * inject_Z (meH e i s)) = mG a + Qfloor (eps * inject_Z (meH e i s))) as Hf.
  { pose proof (Qfloor_le (eps * inject_Z (meH e i s))) as F1. pose proof (Qlt_floor (eps * inject_Z (meH e i s))) as F2.
    pose proof (Qfloor_le (inject_Z (mG a) + eps * inject_Z (meH e i s))) as F3.
    pose proof (Qlt_floor (inject_Z (mG a) + eps * inject_Z (meH e i s))) as F4.
    rewrite inject_Z_plus in F2, F4.
    assert (Qfloor (inject_Z (mG a) + eps * inject_Z (meH e i s)) < mG a + Qfloor (eps * inject_Z (meH e i s)) + 1) as L1.
    { rewrite Zlt_Qlt, !inject_Z_plus. lra. }
    assert (mG a + Qfloor (eps * inject_Z (meH e i s)) < Qfloor (inject_Z (mG a) + eps * inject_Z (meH e i s)) + 1) as L2.
    { rewrite Zlt_Qlt, !inject_Z_plus. lra. }
    lia. }
  unfold toint. rewrite Qtrunc_floor by lra. rewrite Hf, <- Ht.
  assert (tk i s < 1147483648). { rewrite Zlt_Qlt, Ht. pose proof (Qfloor_le (eps * inject_Z (meH e i s))). lra. }
  unfold INFINITECOST in Hg. replace ((-2147483648 <=? mG a + tk i s) && (mG a + tk i s <? 2147483648)) with true by lia. done.
Qed.

(** * Creating and re-initialising a state *)
Lemma clear_rep c s ms : Forall2 rp (mOpen c) ms -> (forall i m, ms !! i = Some m -> m !! s = None) ->
  Forall2 rp (mOpen (clear_indices c s)) ms.
Proof.
  intros H Hn. unfold clear_indices. cbn [mOpen]. apply Forall2_fmap_l. revert Hn.
  induction H as [|h m hs ms' [R O] _ IH]; intros Hn; [constructor|]. constructor.
  - split; [apply idx_rep; [done|by apply (Hn 0%nat)]|]. intros i a b. apply O.
  - apply IH. intros i m' Hm'. by apply (Hn (S i)).
Qed.
(** Any change that keeps what a search sees keeps the invariant. *)
Lemma MI_same c c' ms v pend : MI c ms v pend -> (forall s, lkm c' s = lkm c s) -> (forall s, live c s -> live c' s) ->
  (forall s a, mSt c' !! s = Some a -> (s < meSize e)%nat /\ mCall a <= call) -> Forall2 rp (mOpen c') ms -> MI c' ms v pend.
Proof.
  intros I HL Hlv Hd HR. assert (forall s l, chain c s l -> chain c' s l) as HC.
  { intros s l Hc. induction Hc; [apply ch_one|eapply ch_step; [|done]]; by rewrite HL. }
  destruct I. split; try (intros; rewrite ?HL in *; eauto; fail); eauto.
  - intros s Hg. rewrite HL in Hg. destruct (mi_chain0 s Hg) as [l ?]. exists l. auto.
Qed.
Lemma touch c ms v pend t : MI c ms v pend -> (t < meSize e)%nat ->
  exists c1 c2, get_state e n c t = Ok c1 /\ reinit_state e n call c1 t = Ok c2 /\ MI c2 ms v pend /\ live c2 t /\ (forall s, lkm c2 s = lkm c s) /\
    (forall s, live c s -> live c2 s).
Proof.
  intros I Ht. unfold get_state. destruct (Nat.leb_spec (meSize e) t); [lia|].
  destruct (live_dec c t) as [Hlv|Hdead].
  { destruct (live_lk c t Hlv) as [E1 E2]. rewrite E1. exists c, c. split; [done|]. unfold reinit_state. rewrite E1, E2, Z.eqb_refl. done. }
  assert (forall i m, ms !! i = Some m -> m !! t = None) as Hnone.
  { intros i m Hm. destruct (m !! t) eqn:Et; [|done]. exfalso. apply Hdead. apply fin_live. by destruct (mi_in _ _ _ _ I i m t _ Hm Et) as (_&_&_&_&?&_). }
  set (f0 := mkM 0 0 None false false (heurs e n t)).
  set (c1 := match mSt c !! t with Some _ => c | None => set_mst (clear_indices c t) t f0 end).
  assert ((match mSt c !! t with Some _ => Ok c | None => Ok (set_mst (clear_indices c t) t f0) end) = (Ok c1 : mres mcore)) as E1.
  { unfold c1. destruct (mSt c !! t); done. }
  exists c1. rewrite E1. set (c2 := set_mst (clear_indices c1 t) t (mkM call INFINITECOST None false false (heurs e n t))). exists c2.
  assert (exists a, mSt c1 !! t = Some a /\ mCall a <> call) as (a&Ea&Hac).
  { unfold c1. destruct (mSt c !! t) as [a|] eqn:Et.
    - exists a. split; [done|]. intros Hac. apply Hdead. by exists a.
    - exists f0. unfold set_mst. cbn [mSt]. rewrite lookup_insert. split; [done|]. simpl. lia. }
  split; [done|]. unfold reinit_state. rewrite Ea. destruct (Z.eqb_spec (mCall a) call); [done|]. split; [done|].
  assert (Forall2 rp (mOpen c1) ms) as R1.
  { unfold c1. destruct (mSt c !! t); [apply (mi_rep _ _ _ _ I)|]. unfold set_mst. cbn [mOpen]. apply clear_rep; [apply (mi_rep _ _ _ _ I)|done]. }
  assert (forall s, s <> t -> mSt c2 !! s = mSt c !! s) as Hoth.
  { intros s Hs. unfold c2, c1, set_mst, clear_indices. cbn [mSt]. rewrite lookup_insert_ne by done. destruct (mSt c !! t); [done|]. cbn [mSt]. by rewrite lookup_insert_ne. }
  assert (mSt c2 !! t = Some (fresh t)) as Hself by (unfold c2, set_mst; cbn [mSt]; by rewrite lookup_insert).
  assert (forall s, lkm c2 s = lkm c s) as HL.
  { intros s. destruct (decide (s = t)) as [->|Hs].
    - rewrite (dead_lk c t Hdead). unfold lkm. rewrite Hself. simpl. by rewrite Z.eqb_refl.
    - unfold lkm. by rewrite Hoth. }
  assert (forall s, live c s -> live c2 s) as HV.
  { intros s (b&Hb&Hb2). exists b. rewrite Hoth; [done|]. intros ->. apply Hdead. by exists b. }
  split_and!; try done; [|by exists (fresh t)].
  apply (MI_same c c2 ms v pend I); try done.
  - intros s b Hb. destruct (decide (s = t)) as [->|Hs]; [split; [done|]; rewrite Hself in Hb; injection Hb as <-; cbn; lia|]. rewrite Hoth in Hb by done. by apply (mi_dom _ _ _ _ I s b).
  - unfold c2, set_mst. cbn [mOpen]. by apply clear_rep.
Qed.

(** * Open lists *)
Lemma heap_at_ok c ms i : Forall2 rp (mOpen c) ms -> (i < length ms)%nat ->
  exists h m, heap_at c i = Ok h /\ mOpen c !! i = Some h /\ ms !! i = Some m /\ rp h m.
Proof. intros H Hi. destruct (Forall2_get _ _ _ i H Hi) as (h&m&Eh&Em&HR). exists h, m. unfold heap_at. rewrite Eh. done. Qed.
Lemma iou_spec c ms i m t f : Forall2 rp (mOpen c) ms -> ms !! i = Some m -> Z.of_nat (size m) <> HEAPSIZE - 1 ->
  exists c', insert_or_update c t i f = Ok c' /\ mSt c' = mSt c /\ Forall2 rp (mOpen c') (<[i := <[t := mkKey f 0]> m]> ms).
Proof.
  intros H Hm Hn. destruct (heap_at_ok c ms i H) as (h&m'&E1&E2&E3&HR). { by apply lookup_lt_Some in Hm. }
  assert (m' = m) as -> by congruence. unfold insert_or_update. rewrite E1. cbn [obind].
  destruct (rp_set h m t (mkKey f 0) HR Hn) as (h'&E4&HR'). rewrite E4. cbn [obind mlift].
  exists (set_heap c i h'). split; [done|]. split; [done|]. unfold set_heap. cbn [mOpen]. by apply Forall2_set.
Qed.

Lemma update_adds_spec fa t : forall is_ c ms, Forall2 rp (mOpen c) ms -> live c t -> (forall i, i ∈ is_ -> (1 <= i <= n)%nat) -> length ms = S n ->
  mHs (lkm c t) = heurs e n t -> 0 <= g c t <= INFINITECOST ->
  (forall i m, ms !! i = Some m -> forall s k, m !! s = Some k -> (s < meSize e)%nat) -> (t < meSize e)%nat ->
  exists c' ms', update_adds eps w fa t is_ c = Ok c' /\ mSt c' = mSt c /\ Forall2 rp (mOpen c') ms' /\ length ms' = S n /\
    (forall i m', ms' !! i = Some m' -> exists m, ms !! i = Some m /\
       (m' = m \/ (i <> 0%nat /\ exists k, m' = <[t := k]> m /\ k1 k = 0 /\ g c t <= k0 k <= g c t + tk i t))).
Proof.
  induction is_ as [|i is_ IH]; intros c ms HR Hlv Hi Hlen Hhs Hg Hdom Ht.
  { exists c, ms. split_and!; eauto. }
  pose proof (Hi i ltac:(left)) as Hi1.
  destruct (heap_at_ok c ms i HR ltac:(lia)) as (h&m&_&_&Em&_).
  destruct (key_val (lkm c t) t i Hhs Hg ltac:(lia)) as (Ek&Hk0&_).
  cbn [update_adds]. rewrite (live_rdm c t Hlv). cbn [obind]. rewrite Ek. cbn [obind].
  assert (Z.of_nat (size m) <> HEAPSIZE - 1) as Hroom.
  { pose proof (map_size_lt m (meSize e) (Hdom i m Em)). pose proof (gm_size _ _ _ HG). unfold HEAPSIZE. lia. }
  assert (exists c1 ms1, (if Qle_bool (inject_Z (g c t + tk i t)) (w * inject_Z fa) then insert_or_update c t i (g c t + tk i t) else Ok c) = Ok c1 /\
    mSt c1 = mSt c /\ Forall2 rp (mOpen c1) ms1 /\ length ms1 = S n /\
    (forall i m', ms1 !! i = Some m' -> exists m, ms !! i = Some m /\
       (m' = m \/ (i <> 0%nat /\ exists k, m' = <[t := k]> m /\ k1 k = 0 /\ g c t <= k0 k <= g c t + tk i t)))) as (c1&ms1&E1&S1&R1&L1&P1).
  { destruct (Qle_bool _ _).
    - destruct (iou_spec c ms i m t (g c t + tk i t) HR Em Hroom) as (c1&E1&S1&R1). exists c1, (<[i := <[t := mkKey (g c t + tk i t) 0]> m]> ms).
      split_and!; try done; [by rewrite insert_length|]. intros j m' Hj. destruct (decide (j = i)) as [->|Hji].
      + rewrite list_lookup_insert in Hj by lia. injection Hj as <-. exists m. split; [done|]. right. split; [lia|]. eexists. split; [done|]. simpl. lia.
      + rewrite list_lookup_insert_ne in Hj by done. eauto.
    - exists c, ms. split_and!; eauto. }
  rewrite E1. cbn [obind].
  assert (forall s, lkm c1 s = lkm c s) as HL by (intros s; unfold lkm; by rewrite S1).
  destruct (IH c1 ms1) as (c'&ms'&E2&S2&R2&L2&P2); try done.
  - unfold live. by rewrite S1.
  - intros j Hj. apply Hi. by right.
  - by rewrite HL.
  - by rewrite HL.
  - intros j m1 Hj s k Hs. destruct (P1 j m1 Hj) as (m0&Hm0&[->|(_&k'&->&_)]); [by apply (Hdom j m0 Hm0 s k)|].
    destruct (decide (s = t)) as [->|Hst]; [done|]. rewrite lookup_insert_ne in Hs by done. by apply (Hdom j m0 Hm0 s k).
  - exists c', ms'. split_and!; try done; [congruence|]. intros j m2 Hj. destruct (P2 j m2 Hj) as (m1&Hm1&Hc2).
    destruct (P1 j m1 Hm1) as (m0&Hm0&Hc1). exists m0. split; [done|]. rewrite HL in Hc2.
    destruct Hc2 as [->|(Hj0&k2&->&Hk2&Hg2)]; [done|]. right. split; [done|].
    destruct Hc1 as [->|(_&k1'&->&_)]; [by exists k2|]. exists k2. by rewrite insert_insert.
Qed.

(** * Relaxing one edge *)
Lemma chain_g c ms v pend s l : MI c ms v pend -> chain c s l -> forall u, u ∈ l -> g c u <= g c s.
Proof.
  intros I H. induction H as [s Hs|s p l Hb Hc IH]; intros u Hu.
  - apply elem_of_list_singleton in Hu as ->. lia.
  - apply elem_of_cons in Hu as [->|Hu]; [lia|]. specialize (IH u Hu). destruct (mi_bp _ _ _ _ I s p Hb) as [_ (x&Hx&?)].
    destruct (gm_edge _ _ _ HG p s x Hx). lia.
Qed.
Definition lowered (c : mcore) (t s : nat) (ng : Z) : mstate := mkM call ng (Some s) (anc c t) (add c t) (mHs (lkm c t)).
Lemma MI_lower c c' ms ms' v s t x ns : MI c ms v (Some (s, (t, x) :: ns)) -> v s = g c s -> v s < INFINITECOST -> (t, x) ∈ meSuccs e s ->
  g c s + x < g c t -> (forall u, lkm c' u = if decide (u = t) then lowered c t s (g c s + x) else lkm c u) ->
  (forall u, live c u -> live c' u) -> (forall u a, mSt c' !! u = Some a -> (u < meSize e)%nat /\ mCall a <= call) ->
  Forall2 rp (mOpen c') ms' -> length ms' = S n ->
  (forall i m', ms' !! i = Some m' -> exists m, ms !! i = Some m /\
     ((m' = m /\ (i = 0%nat -> anc c t = true)) \/ (anc c t = false /\ (i <> 0%nat -> add c t = false) /\ exists k, m' = <[t := k]> m /\ k1 k = 0 /\ g c s + x <= k0 k <= g c s + x + tk i t /\
        (i = 0%nat -> k0 k = g c s + x + tk 0 t)))) ->
  MI c' ms' v (Some (s, ns)).
Proof.
  intros I Hvs Hfin Hedge Hlt HL Hlive Hdom HR Hlen Hms.
  destruct (gm_edge _ _ _ HG s t x Hedge) as [Ht Hx].
  assert (t <> s) as Hts by (intros ->; lia).
  assert (forall u, g c' u = if decide (u = t) then g c s + x else g c u) as Hg.
  { intros u. rewrite HL. destruct (decide (u = t)); done. }
  assert (forall u, bp c' u = if decide (u = t) then Some s else bp c u) as Hb.
  { intros u. rewrite HL. destruct (decide (u = t)); done. }
  assert (forall u, anc c' u = anc c u) as Ha. { intros u. rewrite HL. destruct (decide (u = t)) as [->|]; done. }
  assert (forall u, add c' u = add c u) as Hd. { intros u. rewrite HL. destruct (decide (u = t)) as [->|]; done. }
  assert (forall u, g c' u <= g c u) as Hle. { intros u. rewrite Hg. destruct (decide (u = t)) as [->|]; lia. }
  pose proof (mi_g _ _ _ _ I) as Hrange.
  assert (t <> start) as Htst. { intros ->. pose proof (proj1 (mi_start _ _ _ _ I)). pose proof (Hrange s). lia. }
  split.
  - done.
  - intros u. rewrite HL. destruct (decide (u = t)) as [->|]; apply (mi_hs _ _ _ _ I).
  - done.
  - done.
  - intros i m' u k Hm' Hk. destruct (Hms i m' Hm') as (m&Hm&Hcase). rewrite Ha, Hd, Hg.
    destruct Hcase as [[-> Hi0]|(Hanc&Hadd&k'&->&Hk1&Hk0&Hki)].
    + destruct (mi_in _ _ _ _ I i m u k Hm Hk) as (A1&A2&A3&A4&A5&A6). destruct (decide (u = t)) as [->|Hut]; [|done].
      split_and!; try done; try lia. intros ->. specialize (Hi0 eq_refl). congruence.
    + destruct (decide (u = t)) as [->|Hut].
      * rewrite lookup_insert in Hk. injection Hk as <-. pose proof (Hrange t). split_and!; try done; lia.
      * rewrite lookup_insert_ne in Hk by done. destruct (mi_in _ _ _ _ I i m u k Hm Hk) as (A1&A2&A3&A4&A5&A6). done.
  - rewrite Hg, Hb. destruct (decide (start = t)); [congruence|]. apply (mi_start _ _ _ _ I).
  - apply Hlive, (mi_goal _ _ _ _ I).
  - intros u. rewrite Hg. pose proof (Hrange u). pose proof (Hrange s). pose proof (Hrange t). destruct (decide (u = t)); lia.
  - intros u p. rewrite Hb. destruct (decide (u = t)) as [->|Hut].
    + intros [= <-]. rewrite !Hg. destruct (decide (t = t)); [|done]. destruct (decide (s = t)); [congruence|]. pose proof (Hrange t). split; [lia|]. exists x. split; [done|lia].
    + intros Hp. destruct (mi_bp _ _ _ _ I u p Hp) as [B1 (y&B2&B3)]. rewrite (Hg u). destruct (decide (u = t)); [done|]. split; [done|]. exists y. split; [done|].
      pose proof (Hle p). lia.
  - intros u. rewrite Hg, Hb. destruct (decide (u = t)) as [->|Hut]; [by right; eauto|]. apply (mi_some _ _ _ _ I).
  - destruct (mi_chain _ _ _ _ I s) as [ls Hls]; [lia|].
    assert (forall u l, chain c u l -> t ∉ l -> chain c' u l) as Hkeep.
    { intros u l Hc. induction Hc as [u Hu|u p l Hu Hc IH]; intros Hn.
      - apply ch_one. rewrite Hb. destruct (decide (u = t)) as [->|]; [|done]. exfalso. apply Hn. by left.
      - apply (ch_step _ _ p); [|apply IH; intros ?; apply Hn; by right]. rewrite Hb. destruct (decide (u = t)) as [->|]; [|done]. exfalso. apply Hn. by left. }
    assert (t ∉ ls) as Hnt. { intros Hin. pose proof (chain_g _ _ _ _ _ _ I Hls t Hin). lia. }
    assert (chain c' t (t :: ls)) as Hct.
    { apply (ch_step _ _ s); [|by apply Hkeep]. rewrite Hb. by destruct (decide (t = t)). }
    assert (forall u l, chain c u l -> exists l', chain c' u l') as Hall.
    { intros u l Hc. induction Hc as [u Hu|u p l Hu Hc [l' IH]]; (destruct (decide (u = t)) as [->|Hut]; [by exists (t :: ls)|]).
      - exists [u]. apply ch_one. rewrite Hb. by destruct (decide (u = t)).
      - exists (u :: l'). apply (ch_step _ _ p); [|done]. rewrite Hb. by destruct (decide (u = t)). }
    intros u. rewrite Hg. intros Hgu. destruct (decide (u = t)) as [->|Hut]; [by exists (t :: ls)|].
    destruct (mi_chain _ _ _ _ I u Hgu) as [l Hl]. by apply (Hall u l).
  - intros u. pose proof (mi_v _ _ _ _ I u). pose proof (Hle u). lia.
  - intros u y z Hv Hyz. destruct (mi_clo _ _ _ _ I u y z Hv Hyz) as [[-> Hin]|?]; [|right; pose proof (Hle y); lia].
    apply elem_of_cons in Hin as [[= -> ->]|Hin]; [|by left]. right. rewrite Hg. destruct (decide (t = t)); [lia|done].
  - intros u. rewrite Ha, Hg. destruct (lookup_lt_is_Some_2 ms' 0%nat ltac:(lia)) as [m' Hm']. destruct (Hms 0%nat m' Hm') as (m&Hm&Hcase).
    destruct (decide (u = t)) as [->|Hut].
    + destruct Hcase as [[-> Hi0]|(_&_&k&->&_)]; [right; right; auto|]. left. exists (<[t:=k]> m). split; [done|]. rewrite lookup_insert. eauto.
    + destruct (mi_open _ _ _ _ I u) as [(m0&Hm0&Hin)|?]; [|by right]. left. exists m'. split; [done|]. assert (m0 = m) as -> by congruence.
      destruct Hcase as [[-> _]|(_&_&k&->&_)]; [done|]. by rewrite lookup_insert_ne.
  - intros u. rewrite Ha, Hd. apply (mi_flag _ _ _ _ I).
  - intros u l C. rewrite Ha. apply (mi_bound _ _ _ _ I).
Qed.

Definition newkeys (ms ms' : list (gmap nat ckey)) (b : Z) : Prop := forall i m' u k, ms' !! i = Some m' -> m' !! u = Some k ->
  (exists m, ms !! i = Some m /\ m !! u = Some k) \/ k0 k <= b + tk i u.
Lemma mrelax_spec c ms v s t x ns : MI c ms v (Some (s, (t, x) :: ns)) -> live c s -> v s = g c s -> v s < INFINITECOST -> (t, x) ∈ meSuccs e s ->
  exists c' ms', mrelax e n call eps w s c (t, x) = Ok c' /\ MI c' ms' v (Some (s, ns)) /\ live c' s /\ v s = g c' s /\
    (forall u, anc c' u = anc c u /\ add c' u = add c u) /\ (forall u, g c' u = g c u \/ (u = t /\ g c' u = g c s + x)) /\ newkeys ms ms' (g c s + x).
Proof.
  intros I Hlv Hvs Hfin Hedge. destruct (gm_edge _ _ _ HG s t x Hedge) as [Ht Hx].
  destruct (touch c ms v _ t I Ht) as (c1&c2&E1&E2&I2&Hlt&HL&HV).
  unfold mrelax. cbn [fst snd]. rewrite E1. cbn [obind]. rewrite E2. cbn [obind]. rewrite (live_rdm c2 s (HV s Hlv)), (live_rdm c2 t Hlt). cbn [obind].
  rewrite <- (HL s) in Hvs. rewrite <- !(HL s).
  destruct (Z.ltb_spec (g c2 s + x) (g c2 t)) as [Hlow|Hno].
  2:{ exists c2, ms. split; [done|]. split; [|split_and!; auto; [intros u; rewrite HL; auto..|intros i m' u k Hi Hu; left; eauto]].
      destruct I2. split; try done. intros u y z Hv Hyz. destruct (mi_clo0 u y z Hv Hyz) as [[-> Hin]|?]; [|by right].
      apply elem_of_cons in Hin as [[= -> ->]|Hin]; [right; lia|by left]. }
  rewrite lkm_call. set (a' := mkM call (g c2 s + x) (Some s) (anc c2 t) (add c2 t) (mHs (lkm c2 t))). cbn [mAnc mAdd a'].
  set (c3 := set_mst c2 t a').
  assert (forall u, lkm c3 u = if decide (u = t) then lowered c2 t s (g c2 s + x) else lkm c2 u) as HL3 by (intros u; apply lkm_set; done).
  assert (forall u, live c2 u -> live c3 u) as HV3 by (intros u Hu; apply live_set; [done|by left]).
  assert (forall u a, mSt c3 !! u = Some a -> (u < meSize e)%nat /\ mCall a <= call) as Hdom3.
  { intros u a Hu. unfold c3, set_mst in Hu. cbn [mSt] in Hu. destruct (decide (u = t)) as [->|Hut]; [split; [done|]; rewrite lookup_insert in Hu; injection Hu as <-; cbn; lia|]. rewrite lookup_insert_ne in Hu by done. by apply (mi_dom _ _ _ _ I2 u a). }
  assert (mOpen c3 = mOpen c2) as HO3 by done.
  assert (t <> s) as Hts by (intros ->; lia).
  pose proof (mi_g _ _ _ _ I2) as Hrange.
  assert (exists c' ms', (if negb (anc c2 t)
     then do fanchor <- compute_key eps a' 0; do c <- insert_or_update c3 t 0 fanchor; (if negb (add c2 t) then update_adds eps w fanchor t (seq 1 n) c else Ok c)
     else Ok c3) = Ok c' /\ mSt c' = mSt c3 /\ Forall2 rp (mOpen c') ms' /\ length ms' = S n /\
     (forall i m', ms' !! i = Some m' -> exists m, ms !! i = Some m /\
     ((m' = m /\ (i = 0%nat -> anc c2 t = true)) \/ (anc c2 t = false /\ (i <> 0%nat -> add c2 t = false) /\ exists k, m' = <[t := k]> m /\ k1 k = 0 /\ g c2 s + x <= k0 k <= g c2 s + x + tk i t /\
        (i = 0%nat -> k0 k = g c2 s + x + tk 0 t))))) as (c'&ms'&E&HS&HR&Hlen&Hms).
  { destruct (anc c2 t) eqn:Hanc; cbn [negb].
    { exists c3, ms. split_and!; try done; [apply (mi_rep _ _ _ _ I2)|apply (mi_len _ _ _ _ I2)|]. intros i m' Hm'. exists m'. split; [done|]. left. done. }
    pose proof (Hrange s) as Hrs. pose proof (Hrange t) as Hrt.
    destruct (key_val a' t 0) as (Ek&Hk0&_); [apply (mi_hs _ _ _ _ I2)|cbn [mG a']; lia|lia|].
    rewrite Ek. cbn [obind mG a']. fold a'.
    destruct (heap_at_ok c2 ms 0 (mi_rep _ _ _ _ I2)) as (h0&m0&_&_&Em0&_); [rewrite (mi_len _ _ _ _ I2); lia|].
    destruct (iou_spec c3 ms 0 m0 t (g c2 s + x + tk 0 t)) as (c4&E4&S4&R4); [apply (mi_rep _ _ _ _ I2)|done|by apply (mi_room _ _ _ _ _ _ I2 Em0)|].
    rewrite E4. cbn [obind]. set (ms4 := <[0%nat := <[t := mkKey (g c2 s + x + tk 0 t) 0]> m0]> ms) in *.
    assert (length ms4 = S n) as L4 by (unfold ms4; rewrite insert_length; apply (mi_len _ _ _ _ I2)).
    assert (forall i m', ms4 !! i = Some m' -> exists m, ms !! i = Some m /\
     ((m' = m /\ i <> 0%nat) \/ (i = 0%nat /\ exists k, m' = <[t := k]> m /\ k1 k = 0 /\ g c2 s + x <= k0 k /\
        (k0 k = g c2 s + x + tk 0 t)))) as P4.
    { intros i m' Hi. unfold ms4 in Hi. destruct (decide (i = 0%nat)) as [->|Hi0].
      - rewrite list_lookup_insert in Hi by (rewrite (mi_len _ _ _ _ I2); lia). injection Hi as <-. exists m0. split; [done|]. right. split; [done|]. eexists. split; [done|]. simpl. lia.
      - rewrite list_lookup_insert_ne in Hi by done. exists m'. auto. }
    assert (forall u, lkm c4 u = lkm c3 u) as HL4 by (intros u; unfold lkm; by rewrite S4).
    destruct (add c2 t) eqn:Hadd; cbn [negb].
    - exists c4, ms4. split_and!; try done. intros i m' Hi. destruct (P4 i m' Hi) as (m&Hm&[[-> ?]|[-> (k&->&K1&K2&K3)]]); exists m; (split; [done|]).
      + left. split; [done|]. lia.
      + right. split; [done|]. split; [lia|]. exists k. split_and!; auto; lia.
    - destruct (update_adds_spec (g c2 s + x + tk 0 t) t (seq 1 n) c4 ms4) as (c5&ms5&E5&S5&R5&L5&P5); try done.
      + unfold live. rewrite S4. apply HV3. done.
      + intros i Hi. apply elem_of_seq in Hi. lia.
      + rewrite HL4, HL3. destruct (decide (t = t)); [|done]. apply (mi_hs _ _ _ _ I2).
      + rewrite HL4, HL3. destruct (decide (t = t)); [|done]. cbn [lowered mG]. lia.
      + intros i m' Hi u k Hk. assert (forall m u k, ms !! i = Some m -> m !! u = Some k -> (u < meSize e)%nat) as Hd.
        { intros m u' k' Hm Hu'. apply (mi_live_dom _ _ _ _ _ I2), fin_live. by destruct (mi_in _ _ _ _ I2 i m u' k' Hm Hu') as (_&_&_&_&?&_). }
        destruct (P4 i m' Hi) as (m&Hm&[[-> ?]|[_ (k'&->&_)]]); [by apply (Hd m u k)|]. destruct (decide (u = t)) as [->|Hut]; [done|].
        rewrite lookup_insert_ne in Hk by done. by apply (Hd m u k).
      + exists c5, ms5. split_and!; try done; [congruence|]. intros i m5 Hi. destruct (P5 i m5 Hi) as (m4&Hm4&Hc5). destruct (P4 i m4 Hm4) as (m&Hm&Hc4). exists m. split; [done|].
        rewrite HL4, HL3 in Hc5. destruct (decide (t = t)); [|done]. cbn [lowered mG] in Hc5.
        destruct Hc5 as [->|(Hi0&k&->&K1&K2)].
        * destruct Hc4 as [[-> ?]|[-> (k&->&K1&K2&K3)]]; [left; split; [done|lia]|]. right. split; [done|]. split; [lia|]. exists k. split_and!; auto; lia.
        * destruct Hc4 as [[-> ?]|[-> _]]; [|done]. right. split; [done|]. split; [done|]. exists k. split_and!; try done; lia. }
  rewrite E.
  assert (forall u, lkm c' u = lkm c3 u) as HL' by (intros u; unfold lkm; by rewrite HS).
  exists c', ms'. split; [done|]. split_and!.
  - apply (MI_lower c2 c' ms ms' v s t x ns I2); try done.
    + intros u. rewrite HL'. apply HL3.
    + intros u Hu. unfold live. rewrite HS. by apply HV3.
    + intros u a. rewrite HS. apply Hdom3.
  - unfold live. rewrite HS. apply HV3, HV, Hlv.
  - rewrite HL', HL3. destruct (decide (s = t)); [congruence|]. done.
  - intros u. rewrite HL', HL3, <- !(HL u). destruct (decide (u = t)) as [->|]; done.
  - intros u. rewrite HL', HL3, <- !(HL u). destruct (decide (u = t)) as [->|]; [right; done|by left].
  - intros i m' u k Hi Hu. destruct (Hms i m' Hi) as (m&Hm&[[-> _]|(_&_&q&->&_&Hq&_)]); [left; eauto|]. destruct (decide (u = t)) as [->|Hut].
    + rewrite lookup_insert in Hu. injection Hu as <-. right. lia.
    + rewrite lookup_insert_ne in Hu by done. left. eauto.
Qed.
Lemma mrelax_all_spec s M : forall ns c ms v, MI c ms v (Some (s, ns)) -> live c s -> v s = g c s -> v s < INFINITECOST -> (forall t x, (t, x) ∈ ns -> (t, x) ∈ meSuccs e s) ->
  (forall t x, (t, x) ∈ ns -> x <= M) ->
  exists c' ms', mrelax_all e n call eps w s ns c = Ok c' /\ MI c' ms' v None /\ live c' s /\
    (forall u, anc c' u = anc c u /\ add c' u = add c u) /\ (forall u, g c' u = g c u \/ g c' u <= g c s + M) /\ newkeys ms ms' (g c s + M).
Proof.
  induction ns as [|[t x] ns IH]; intros c ms v I Hlv Hvs Hfin Hsub HM.
  { exists c, ms. split_and!; auto; [|intros i m' u k Hi Hu; left; eauto]. destruct I. split; try done. intros u y z Hv Hyz. destruct (mi_clo0 u y z Hv Hyz) as [[_ Hin]|?]; [by apply elem_of_nil in Hin|by right]. }
  destruct (mrelax_spec c ms v s t x ns I Hlv Hvs Hfin) as (c1&ms1&E1&I1&Hlv1&Hvs1&F1&G1&N1); [apply Hsub; by left|].
  destruct (IH c1 ms1 v I1 Hlv1 Hvs1 Hfin) as (c2&ms2&E2&I2&Hlv2&F2&G2&N2).
  { intros t' x' Hin. apply Hsub. by right. }
  { intros t' x' Hin. apply (HM t'). by right. }
  exists c2, ms2. cbn [mrelax_all]. rewrite E1. cbn [obind]. split_and!; try done.
  - intros u. destruct (F1 u) as [<- <-]. apply F2.
  - intros u. specialize (HM t x ltac:(left)). rewrite <- Hvs1 in G2. rewrite <- Hvs. destruct (G2 u) as [->|?]; [|right; lia].
    destruct (G1 u) as [->|[_ ->]]; [by left|right; lia].
  - specialize (HM t x ltac:(left)). intros i m' u k Hi Hu. destruct (N2 i m' u k Hi Hu) as [(m1&Hm1&Hu1)|?]; [|right; lia].
    destruct (N1 i m1 u k Hm1 Hu1) as [?|?]; [by left|right; lia].
Qed.

(** * Expanding a state *)
Lemma remove_all_spec s : forall is_ c ms, Forall2 rp (mOpen c) ms -> (forall i, i ∈ is_ -> (i < length ms)%nat) ->
  exists c' ms', remove_all s is_ c = Ok c' /\ mSt c' = mSt c /\ Forall2 rp (mOpen c') ms' /\ length ms' = length ms /\
    (forall i, i ∈ is_ -> ms' !! i = delete s <$> ms !! i) /\ (forall i m', ms' !! i = Some m' -> exists m, ms !! i = Some m /\ (m' = m \/ m' = delete s m)).
Proof.
  induction is_ as [|i is_ IH]; intros c ms HR Hi.
  { exists c, ms. split_and!; try done; [intros i Hin; by apply elem_of_nil in Hin|eauto]. }
  destruct (heap_at_ok c ms i HR (Hi i ltac:(left))) as (h&m&E1&E2&E3&[R O]).
  cbn [remove_all]. rewrite E1. cbn [obind].
  assert (exists c1, (if inheap h s then do h <- mlift MHeap (deleteheap ckeyops h s); Ok (set_heap c i h) else Ok c) = Ok c1 /\ mSt c1 = mSt c /\
    Forall2 rp (mOpen c1) (<[i := delete s m]> ms)) as (c1&E4&S1&R1).
  { rewrite (inheap_spec h m s R). case_bool_decide as Hb.
    - destruct Hb as [k Hk]. destruct (deleteheap_spec ckeyops ckeylaws h m s k R O Hk) as (h'&Eh&R'&O'). rewrite Eh. cbn [obind mlift].
      eexists. split; [done|]. split; [done|]. unfold set_heap. cbn [mOpen]. by apply Forall2_set.
    - exists c. split_and!; try done. rewrite delete_notin; [|destruct (m !! s); [exfalso; apply Hb; eauto|done]]. by rewrite list_insert_id. }
  rewrite E4. cbn [obind].
  destruct (IH c1 (<[i := delete s m]> ms) R1) as (c'&ms'&E5&S2&R2&L2&P2&Q2).
  { intros j Hj. rewrite insert_length. apply Hi. by right. }
  assert (i < length ms)%nat as Hil by (apply Hi; left).
  exists c', ms'. rewrite insert_length in L2. split_and!; try done; [congruence| |].
  - intros j Hj. destruct (decide (j ∈ is_)) as [Hin|Hnin].
    + rewrite (P2 j Hin). destruct (decide (j = i)) as [->|Hji].
      * rewrite list_lookup_insert by done. rewrite E3. simpl. f_equal. apply delete_idemp.
      * by rewrite list_lookup_insert_ne.
    + apply elem_of_cons in Hj as [->|?]; [|done]. rewrite E3. simpl.
      destruct (lookup_lt_is_Some_2 ms' i ltac:(lia)) as [m' Hm']. destruct (Q2 i m' Hm') as (m1&Hm1&Hc). rewrite list_lookup_insert in Hm1 by done. injection Hm1 as <-.
      rewrite Hm'. f_equal. destruct Hc as [->| ->]; [done|apply delete_idemp].
  - intros j m' Hj. destruct (Q2 j m' Hj) as (m1&Hm1&Hc). destruct (decide (j = i)) as [->|Hji].
    + rewrite list_lookup_insert in Hm1 by done. injection Hm1 as <-. exists m. split; [done|]. right. destruct Hc as [->| ->]; [done|apply delete_idemp].
    + rewrite list_lookup_insert_ne in Hm1 by done. eauto.
Qed.
Definition closed_as (hidx : nat) (a : mstate) : mstate :=
  if (hidx =? 0)%nat then mkM (mCall a) (mG a) (mBp a) true (mAdd a) (mHs a) else mkM (mCall a) (mG a) (mBp a) (mAnc a) true (mHs a).
Lemma expand_spec c ms v s i m k M : MI c ms v None -> ms !! i = Some m -> m !! s = Some k -> (i <= n)%nat -> s <> goal ->
  (i = 0%nat -> con = true -> forall l C, route (inflate eps) (medge e) l start s C -> g c s <= C) -> (forall t x, (t, x) ∈ meSuccs e s -> x <= M) ->
  exists c' ms', expand e n call eps w s i c = Ok c' /\ MI c' ms' (fun u => if decide (u = s) then g c s else v u) None /\
    (forall u, anc c' u = (if decide (u = s) then (i =? 0)%nat || anc c s else anc c u) /\ add c' u = (if decide (u = s) then negb (i =? 0)%nat || add c s else add c u)) /\
    (forall u, g c' u = g c u \/ g c' u <= g c s + M) /\ anc c s = false /\ (i <> 0%nat -> add c s = false) /\ g c s < INFINITECOST /\ newkeys ms ms' (g c s + M).
Proof.
  intros I Hm Hk Hin Hsg Hbound HM.
  destruct (mi_in _ _ _ _ I i m s k Hm Hk) as (Hanc&Hadd&_&_&Hfin&_).
  pose proof (fin_live c s Hfin) as Hlv.
  unfold expand. rewrite (live_rdm c s Hlv). cbn [obind]. rewrite Hanc, andb_false_r.
  rewrite <- Hanc. change (if (i =? 0)%nat then _ else _) with (closed_as i (lkm c s)). set (a := closed_as i (lkm c s)). rewrite Hanc.
  set (c1 := set_mst c s a).
  assert (mCall a = call) as Hac by (unfold a, closed_as; destruct (i =? 0)%nat; apply lkm_call).
  assert (mG a = g c s /\ mBp a = bp c s /\ mHs a = mHs (lkm c s)) as (Hag&Hab&Hah) by (unfold a, closed_as; destruct (i =? 0)%nat; done).
  assert (mAnc a = (i =? 0)%nat || anc c s /\ mAdd a = negb (i =? 0)%nat || add c s) as [Haa Had].
  { unfold a, closed_as. destruct (i =? 0)%nat; done. }
  destruct (remove_all_spec s (seq 0 (S n)) c1 ms) as (c2&ms2&E2&S2&R2&L2&P2&_).
  { apply (mi_rep _ _ _ _ I). }
  { intros j Hj. apply elem_of_seq in Hj. rewrite (mi_len _ _ _ _ I). lia. }
  rewrite E2. cbn [obind]. rewrite (mi_len _ _ _ _ I) in L2.
  assert (forall u, lkm c2 u = if decide (u = s) then a else lkm c u) as HL.
  { intros u. unfold lkm at 1. rewrite S2. apply (lkm_set c s a u Hac). }
  assert (forall u, g c2 u = g c u) as Hg. { intros u. rewrite HL. destruct (decide (u = s)) as [->|]; done. }
  assert (forall u, bp c2 u = bp c u) as Hb. { intros u. rewrite HL. destruct (decide (u = s)) as [->|]; done. }
  assert (forall u, anc c2 u = if decide (u = s) then (i =? 0)%nat || anc c s else anc c u) as Ha. { intros u. rewrite HL. destruct (decide (u = s)); done. }
  assert (forall u, add c2 u = if decide (u = s) then negb (i =? 0)%nat || add c s else add c u) as Hd. { intros u. rewrite HL. destruct (decide (u = s)); done. }
  assert (forall u, live c u -> live c2 u) as HV. { intros u Hu. unfold live. rewrite S2. apply live_set; auto. }
  assert (forall j m', ms2 !! j = Some m' -> exists m0, ms !! j = Some m0 /\ m' = delete s m0) as Hms2.
  { intros j m' Hj. pose proof (lookup_lt_Some _ _ _ Hj). rewrite P2 in Hj by (apply elem_of_seq; lia). destruct (ms !! j) as [m0|]; [|done]. injection Hj as <-. eauto. }
  set (v' := fun u => if decide (u = s) then g c s else v u).
  assert (forall u l, chain c u l -> chain c2 u l) as HC.
  { intros u l Hc. induction Hc; [apply ch_one|eapply ch_step; [|done]]; by rewrite Hb. }
  assert (MI c2 ms2 v' (Some (s, meSuccs e s))) as I2.
  { pose proof (mi_v _ _ _ _ I) as Iv. split.
    - intros u b. rewrite S2. unfold c1, set_mst. cbn [mSt]. destruct (decide (u = s)) as [->|Hus]; [rewrite lookup_insert; intros [= <-]; split; [by apply (mi_live_dom _ _ _ _ _ I)|rewrite Hac; lia]|].
      rewrite lookup_insert_ne by done. apply (mi_dom _ _ _ _ I).
    - intros u. rewrite HL. destruct (decide (u = s)) as [->|]; [rewrite Hah|]; apply (mi_hs _ _ _ _ I).
    - done.
    - done.
    - intros j m' u k' Hj Hu. destruct (Hms2 j m' Hj) as (m0&Hm0&->). apply lookup_delete_Some in Hu as [Hus Hu].
      rewrite Ha, Hd, Hg. destruct (decide (u = s)); [congruence|]. by apply (mi_in _ _ _ _ I j m0 u k').
    - rewrite Hg, Hb. apply (mi_start _ _ _ _ I).
    - apply HV, (mi_goal _ _ _ _ I).
    - intros u. rewrite Hg. apply (mi_g _ _ _ _ I).
    - intros u p. rewrite Hb. intros Hp. destruct (mi_bp _ _ _ _ I u p Hp) as [? (x&?&?)]. rewrite Hg. split; [done|]. exists x. by rewrite Hg.
    - intros u. rewrite Hg, Hb. apply (mi_some _ _ _ _ I).
    - intros u. rewrite Hg. intros Hu. destruct (mi_chain _ _ _ _ I u Hu) as [l ?]. exists l. auto.
    - intros u. rewrite Hg. unfold v'. destruct (decide (u = s)) as [->|]; [lia|apply Iv].
    - intros u t x. unfold v'. rewrite Hg. destruct (decide (u = s)) as [->|Hus]; [intros _ Hin'; by left|].
      intros Hv Ht. right. by destruct (mi_clo _ _ _ _ I u t x Hv Ht) as [[]|?].
    - intros u. rewrite Ha, Hg. unfold v'. destruct (decide (u = s)) as [->|Hus]; [by right; left|].
      destruct (mi_open _ _ _ _ I u) as [(m0&Hm0&Hu)|?]; [|by right]. left. exists (delete s m0). rewrite P2 by (apply elem_of_seq; lia). rewrite Hm0. split; [done|].
      by rewrite lookup_delete_ne.
    - intros u. rewrite Ha, Hd. unfold v'. destruct (decide (u = s)) as [->|Hus]; [|apply (mi_flag _ _ _ _ I)]. rewrite Hanc. destruct (Nat.eqb_spec i 0); cbn; tauto.
    - intros u l C Hc. rewrite Ha. unfold v'. destruct (decide (u = s)) as [->|Hus]; [|by apply (mi_bound _ _ _ _ I)].
      rewrite Hanc, orb_false_r. intros Hi0. apply Nat.eqb_eq in Hi0. by apply Hbound. }
  destruct (mrelax_all_spec s M (meSuccs e s) c2 ms2 v' I2) as (c3&ms3&E3&I3&Hlv3&F3&G3&N3).
  { by apply HV. } { unfold v'. rewrite Hg. by destruct (decide (s = s)). } { unfold v'. by destruct (decide (s = s)). } { done. } { done. }
  rewrite E3. cbn [obind]. rewrite (live_rdm c3 s Hlv3). cbn [obind].
  assert (add c3 s || anc c3 s = true) as ->.
  { destruct (F3 s) as [-> ->]. rewrite Ha, Hd. destruct (decide (s = s)); [|done]. destruct (i =? 0)%nat; cbn; [by rewrite orb_true_r|done]. }
  exists c3, ms3. split_and!; try done.
  - intros u. destruct (F3 u) as [-> ->]. split; [by rewrite Ha, Hanc|apply Hd].
  - intros u. destruct (G3 u) as [->|?]; [left; apply Hg|right]. by rewrite Hg in H.
  - rewrite Hg in N3. intros j m' u k' Hj Hu. destruct (N3 j m' u k' Hj Hu) as [(m1&Hm1&Hu1)|?]; [|by right]. destruct (Hms2 j m1 Hm1) as (m0&Hm0&->).
    apply lookup_delete_Some in Hu1 as [_ Hu1]. left. eauto.
Qed.

(** * The bound *)
Lemma route_snoc W edge l a b C t x : route W edge l a b C -> edge b t x -> route W edge (l ++ [t]) a t (C + W x).
Proof.
  intros H. induction H as [a|a b l z x' C Hx H IH]; intros He.
  - simpl. replace (0 + W x) with (W x + 0) by lia. apply route_cons; [done|apply route_one].
  - cbn [app]. replace (W x' + C + W x) with (W x' + (C + W x)) by lia. apply route_cons; [done|]. by apply IH.
Qed.
Lemma frontier c ms v z : MI c ms v None -> con = true -> forall l a C2, route (inflate eps) (medge e) l a z C2 ->
  forall l1 C1, route (inflate eps) (medge e) l1 start a C1 -> g c a <= C1 ->
  v z <= C1 + C2 \/ exists m u k Cu Cr lr, ms !! 0%nat = Some m /\ m !! u = Some k /\ g c u <= Cu /\
    route (inflate eps) (medge e) lr u z Cr /\ Cu + Cr = C1 + C2.
Proof.
  intros I Hc l a C2 H. induction H as [a|a b l z x C Hx H IH]; intros l1 C1 H1 Hg.
  - destruct (mi_open _ _ _ _ I a) as [(m&Hm&k&Hk)|[Hv|Ha]].
    + right. exists m, a, k, C1, 0, [a]. split_and!; try done. apply route_one.
    + left. lia.
    + left. pose proof (mi_bound _ _ _ _ I a l1 C1 Hc Ha H1). lia.
  - assert (v a <= C1 \/ exists m k, ms !! 0%nat = Some m /\ m !! a = Some k) as [Hv|(m&k&Hm&Hk)].
    { destruct (mi_open _ _ _ _ I a) as [(m&Hm&k&Hk)|[Hv|Ha]]; [right; eauto|left; lia|left; by apply (mi_bound _ _ _ _ I a l1 C1 Hc Ha H1)]. }
    + assert (g c b <= C1 + inflate eps x) as Hgb.
      { pose proof (inflate_ge eps x). destruct (Z_lt_ge_dec (v a) INFINITECOST) as [Hlt|Hge].
        - destruct (mi_clo _ _ _ _ I a b x Hlt) as [[]|?]; [exact Hx|lia].
        - pose proof (mi_g _ _ _ _ I b). destruct (gm_edge _ _ _ HG a b x Hx). lia. }
      destruct (IH (l1 ++ [b]) (C1 + inflate eps x)) as [?|(m&u&k&Cu&Cr&lr&?&?&?&?&?)]; [by apply (route_snoc (inflate eps) (medge e) l1 start a)|done|left; lia|].
      right. exists m, u, k, Cu, Cr, lr. split_and!; try done. lia.
    + right. exists m, a, k, C1, (inflate eps x + C), (a :: b :: l). split_and!; try done. by apply route_cons.
Qed.
Lemma tk_route u z l C : con = true -> route (inflate eps) (medge e) l u z C -> tk 0 u <= C + tk 0 z.
Proof.
  intros Hc H. destruct (Hcon Hc) as [_ Hcons]. induction H as [a|a b l z x C Hx H IH]; [lia|].
  assert (tk 0 a <= inflate eps x + tk 0 b); [|lia]. unfold tk.
  assert (forall s, eps * inject_Z (meH e 0 s) < inject_Z 2147483648)%Q as Hf.
  { intros s. pose proof (gm_fits _ _ _ HG 0%nat s ltac:(lia)). apply (Qlt_trans _ _ _ H0). done. }
  apply (toint_step eps eps); try apply Hf; try (apply (gm_heur _ _ _ HG); lia); [split; lra|]. apply Hcons. exact Hx.
Qed.
(** The least anchor priority is at most the inflated cost to z plus the inflated heuristic of z, for every route to z. *)
Lemma anchor_min c ms v m s k z l C : MI c ms v None -> con = true -> ms !! 0%nat = Some m -> (forall s' k', m !! s' = Some k' -> kle ckeyops k k') ->
  m !! s = Some k -> route (inflate eps) (medge e) l start z C -> v z <= C \/ k0 k <= C + tk 0 z.
Proof.
  intros I Hc Hm Hmin Hk Hr. destruct (frontier c ms v z I Hc l start C Hr [start] 0) as [?|(m'&u&ku&Cu&Cr&lr&Hm'&Hku&Hgu&Hru&HC)].
  { apply route_one. } { rewrite (proj1 (mi_start _ _ _ _ I)). lia. } { left. lia. }
  right. assert (m' = m) as -> by congruence. pose proof (tk_route u z lr Cr Hc Hru) as Ht.
  destruct (mi_in _ _ _ _ I 0%nat m u ku Hm Hku) as (_&_&K1&_&_&K0). specialize (K0 eq_refl).
  destruct (mi_in _ _ _ _ I 0%nat m s k Hm Hk) as (_&_&K1'&_).
  pose proof (kle_k0 _ _ (Hmin u ku Hku) K1' K1). lia.
Qed.

(** * Counting the expansions *)
Definition cnt (c : mcore) : Z :=
  Z.of_nat (length (filter (fun s => anc c s = true) (seq 0 (meSize e))) + length (filter (fun s => add c s = true) (seq 0 (meSize e)))).
Lemma cnt_le c : 0 <= cnt c <= 2 * Z.of_nat (meSize e).
Proof.
  unfold cnt. pose proof (filter_length (fun s => anc c s = true) (seq 0 (meSize e))). pose proof (filter_length (fun s => add c s = true) (seq 0 (meSize e))).
  rewrite seq_length in *. lia.
Qed.
Lemma filter_flip (P Q : nat -> bool) s l : NoDup l -> s ∈ l -> P s = false -> (forall u, Q u = if decide (u = s) then true else P u) ->
  length (filter (fun u => Q u = true) l) = S (length (filter (fun u => P u = true) l)).
Proof.
  intros Hnd Hin Hps HQ. induction Hnd as [|x l Hx Hnd IH]; [by apply elem_of_nil in Hin|].
  assert (s ∉ l -> length (filter (fun u => Q u = true) l) = length (filter (fun u => P u = true) l)) as Hsame.
  { clear IH Hin Hnd Hx. induction l as [|y l IH]; [done|]. intros Hn. rewrite !filter_cons. rewrite HQ.
    destruct (decide (y = s)) as [->|]; [exfalso; apply Hn; by left|]. assert (s ∉ l) as Hn' by (intros ?; apply Hn; by right).
    destruct (decide (P y = true)); cbn [length]; [f_equal|]; by apply IH. }
  rewrite !filter_cons. rewrite HQ. destruct (decide (x = s)) as [->|Hxs].
  - rewrite Hps. destruct (decide (true = true)); [|done]. destruct (decide (false = true)); [done|]. cbn [length]. f_equal. by apply Hsame.
  - apply elem_of_cons in Hin as [?|Hin]; [congruence|]. destruct (decide (P x = true)); cbn [length]; [f_equal|]; by apply IH.
Qed.
Lemma filter_ext (P Q : nat -> bool) l : (forall u, Q u = P u) -> length (filter (fun u => Q u = true) l) = length (filter (fun u => P u = true) l).
Proof. intros H. induction l as [|y l IH]; [done|]. rewrite !filter_cons, H. destruct (decide (P y = true)); cbn [length]; [f_equal|]; apply IH. Qed.

Record ST (M : Z) (c : mcore) (ms : list (gmap nat ckey)) (v : nat -> Z) (nexp : Z) : Prop := {
  st_mi : MI c ms v None;
  st_goal : v goal = INFINITECOST;
  st_cnt : nexp = cnt c;
  st_b : forall s, g c s < INFINITECOST -> g c s <= nexp * M;
  st_v : forall s, v s < INFINITECOST -> v s + M <= nexp * M;
  st_k : forall i m s k, ms !! i = Some m -> m !! s = Some k -> k0 k <= nexp * M + tk i s
}.
Context (M : Z) (HM : forall s t x, (t, x) ∈ meSuccs e s -> x <= M) (HM0 : 0 <= M).

(** What the planner knows when it stops with success. *)
Definition found (c : mcore) (ms : list (gmap nat ckey)) : Prop :=
  exists f f0 m s k, ms !! 0%nat = Some m /\ m !! s = Some k /\ (forall s' k', m !! s' = Some k' -> kle ckeyops k k') /\
    f0 = k0 k /\ g c goal <= f /\ (f = f0 \/ (inject_Z f <= w * inject_Z f0)%Q) /\
    (g c goal = INFINITECOST -> exists i mi u ku, ms !! i = Some mi /\ mi !! u = Some ku /\ INFINITECOST <= k0 ku /\ (i <= n)%nat).

Definition extra (i : nat) (c : mcore) (ms : list (gmap nat ckey)) : Prop :=
  forall mi si ki, ms !! i = Some mi -> mi !! si = Some ki -> (forall s' k', mi !! s' = Some k' -> kle ckeyops ki k') ->
   exists m s k, ms !! 0%nat = Some m /\ m !! s = Some k /\ (forall s' k', m !! s' = Some k' -> kle ckeyops k k') /\
    (k0 ki = k0 k \/ (inject_Z (k0 ki) <= w * inject_Z (k0 k))%Q).

Lemma try_open_spec c ms v nexp i mi : ST M c ms v nexp -> (i <= n)%nat -> ms !! i = Some mi -> mi <> ∅ -> extra i c ms ->
  exists r, try_open e n call eps w goal i c nexp = Ok r /\
    ((r = (true, c, nexp) /\ found c ms) \/ exists c' ms' v', r = (false, c', nexp + 1) /\ ST M c' ms' v' (nexp + 1)).
Proof.
  intros S Hi Hmi Hne Hex. destruct S as [I Sg Sc Sb Sv Sk].
  destruct (heap_at_ok c ms i (mi_rep _ _ _ _ I)) as (h&m'&E1&_&E3&[R O]); [rewrite (mi_len _ _ _ _ I); lia|].
  assert (m' = mi) as -> by congruence.
  destruct (getmin_spec ckeyops ckeylaws h mi R O Hne) as (s&k&G1&G2&Hk&Hmin).
  unfold try_open. rewrite (live_rdm c goal (mi_goal _ _ _ _ I)). cbn [obind]. unfold get_minf. rewrite E1. cbn [obind]. rewrite G2. cbn [obind mlift].
  destruct (mi_in _ _ _ _ I i mi s k Hmi Hk) as (A1&A2&A3&A4&A5&A6).
  destruct (Z.leb_spec (g c goal) (k0 k)) as [Hdone|Hgo].
  { eexists. split; [done|]. left. split; [done|]. destruct (Hex mi s k Hmi Hk Hmin) as (m0&s0&k0'&Hm0&Hk0&Hmin0&Hcmp).
    exists (k0 k), (k0 k0'), m0, s0, k0'. split_and!; try done. intros Hinf. exists i, mi, s, k. split_and!; try done. lia. }
  rewrite G1. cbn [obind mlift fst].
  assert (s <> goal) as Hsg by (intros ->; lia).
  destruct (expand_spec c ms v s i mi k M I Hmi Hk Hi Hsg) as (c'&ms'&E&I'&F'&G'&B1&B2&B3&N').
  { intros -> Hc l C Hr. destruct (anchor_min c ms v mi s k s l C I Hc Hmi Hmin Hk Hr) as [Hv|Hk0].
    - pose proof (mi_v _ _ _ _ I s). lia.
    - specialize (A6 eq_refl). lia. }
  { intros t x. apply HM. }
  rewrite E. cbn [obind]. eexists. split; [done|]. right. exists c', ms', (fun u => if decide (u = s) then g c s else v u). split; [done|].
  split; [done| | | | |].
  - destruct (decide (goal = s)); [congruence|done].
  - rewrite Sc. unfold cnt. pose proof (mi_live_dom _ _ _ _ _ I (fin_live c s B3)) as Hs.
    assert (s ∈ seq 0 (meSize e)) as Hseq by (apply elem_of_seq; lia).
    destruct (Nat.eqb_spec i 0) as [->|Hi0].
    + rewrite (filter_flip (fun u => anc c u) (fun u => anc c' u) s); [|apply NoDup_seq|done|done|].
      2:{ intros u. destruct (F' u) as [-> _]. destruct (decide (u = s)); done. }
      rewrite (filter_ext (fun u => add c u) (fun u => add c' u)); [lia|]. intros u. destruct (F' u) as [_ ->]. destruct (decide (u = s)) as [->|]; done.
    + rewrite (filter_flip (fun u => add c u) (fun u => add c' u) s); [|apply NoDup_seq|done|auto|].
      2:{ intros u. destruct (F' u) as [_ ->]. destruct (decide (u = s)); done. }
      rewrite (filter_ext (fun u => anc c u) (fun u => anc c' u)); [lia|]. intros u. destruct (F' u) as [-> _]. destruct (decide (u = s)) as [->|]; done.
  - intros u Hu. pose proof (cnt_le c). destruct (G' u) as [Hgu|Hgu].
    + rewrite Hgu in *. specialize (Sb u Hu). lia.
    + specialize (Sb s B3). lia.
  - intros u. specialize (Sb s B3). destruct (decide (u = s)) as [->|]; [lia|]. intros Hv. specialize (Sv u Hv). lia.
  - intros j m' u q Hj Hu. specialize (Sb s B3). destruct (N' j m' u q Hj Hu) as [(m&Hm&Hq)|?]; [|lia]. specialize (Sk j m u q Hm Hq). lia.
Qed.
Lemma get_minf_spec c ms v i mi : MI c ms v None -> ms !! i = Some mi -> mi <> ∅ -> (i <= n)%nat ->
  exists h s k, heap_at c i = Ok h /\ emptyheap h = false /\ get_minf c i = Ok (k0 k) /\ mi !! s = Some k /\ (forall s' k', mi !! s' = Some k' -> kle ckeyops k k').
Proof.
  intros I Hmi Hne Hi. destruct (heap_at_ok c ms i (mi_rep _ _ _ _ I)) as (h&m'&E1&_&E3&[R O]); [rewrite (mi_len _ _ _ _ I); lia|].
  assert (m' = mi) as -> by congruence. destruct (getmin_spec ckeyops ckeylaws h mi R O Hne) as (s&k&G1&G2&Hk&Hmin).
  exists h, s, k. unfold get_minf. rewrite E1. cbn [obind]. rewrite G2. cbn [obind mlift]. split_and!; try done.
  unfold emptyheap. apply Nat.eqb_neq. intros Hc. apply Hne. by apply (rep_empty_cur h mi R).
Qed.
Lemma empty_spec c ms v i mi : MI c ms v None -> ms !! i = Some mi -> (i <= n)%nat -> exists h, heap_at c i = Ok h /\ emptyheap h = bool_decide (mi = ∅).
Proof.
  intros I Hmi Hi. destruct (heap_at_ok c ms i (mi_rep _ _ _ _ I)) as (h&m'&E1&_&E3&[R O]); [rewrite (mi_len _ _ _ _ I); lia|].
  assert (m' = mi) as -> by congruence. exists h. split; [done|]. unfold emptyheap. case_bool_decide as Hb.
  - apply Nat.eqb_eq. by apply (rep_empty_cur h mi R).
  - apply Nat.eqb_neq. intros Hc. apply Hb. by apply (rep_empty_cur h mi R).
Qed.
Lemma same_min (m : gmap nat ckey) s k s' k' : (forall u q, m !! u = Some q -> k1 q = 0) -> m !! s = Some k -> m !! s' = Some k' ->
  (forall u q, m !! u = Some q -> kle ckeyops k q) -> (forall u q, m !! u = Some q -> kle ckeyops k' q) -> k0 k = k0 k'.
Proof.
  intros H1 Hk Hk' Hm Hm'. pose proof (kle_k0 _ _ (Hm _ _ Hk') (H1 _ _ Hk) (H1 _ _ Hk')). pose proof (kle_k0 _ _ (Hm' _ _ Hk) (H1 _ _ Hk') (H1 _ _ Hk)). lia.
Qed.
Lemma heuristic_loop_spec : forall is_ c ms v nexp, ST M c ms v nexp -> (forall i, i ∈ is_ -> (1 <= i <= n)%nat) ->
  exists b c' nexp' ms' v', heuristic_loop e n call eps w goal is_ c nexp = Ok (b, c', nexp') /\ ST M c' ms' v' nexp' /\
    nexp <= nexp' <= nexp + Z.of_nat (length is_) /\ (b = true -> found c' ms') /\
    (b = false -> is_ <> [] -> (exists m, ms !! 0%nat = Some m /\ m <> ∅) -> nexp < nexp').
Proof.
  induction is_ as [|i is_ IH]; intros c ms v nexp S Hi.
  { exists false, c, nexp, ms, v. split_and!; try done; cbn [length]; lia. }
  pose proof (Hi i ltac:(left)) as Hi1. pose proof (st_mi _ _ _ _ _ S) as I.
  destruct (lookup_lt_is_Some_2 ms 0%nat) as [m0 Hm0]; [rewrite (mi_len _ _ _ _ I); lia|].
  destruct (lookup_lt_is_Some_2 ms i) as [mi Hmi]; [rewrite (mi_len _ _ _ _ I); lia|].
  destruct (empty_spec c ms v 0 m0 I Hm0 ltac:(lia)) as (h0&E0&Em0). cbn [heuristic_loop]. rewrite E0. cbn [obind]. rewrite Em0.
  case_bool_decide as Hb0.
  { exists false, c, nexp, ms, v. split_and!; try done; cbn [length]; try lia. intros _ _ (m&Hm&Hne). congruence. }
  destruct (empty_spec c ms v i mi I Hmi ltac:(lia)) as (hi&Ei&Emi). rewrite Ei. cbn [obind]. rewrite Emi.
  destruct (get_minf_spec c ms v 0 m0 I Hm0 Hb0 ltac:(lia)) as (_&s0&q0&_&_&Gm0&Hq0&Hmin0).
  assert (exists use, (if bool_decide (mi = ∅) then Ok false else do a <- get_minf c i; do b <- get_minf c 0; Ok (Qle_bool (inject_Z a) (w * inject_Z b))) = (Ok use : mres bool) /\
    (use = true -> mi <> ∅ /\ extra i c ms)) as (use&Euse&Huse).
  { case_bool_decide as Hbi; [by exists false|]. destruct (get_minf_spec c ms v i mi I Hmi Hbi ltac:(lia)) as (_&si&qi&_&_&Gmi&Hqi&Hmini).
    rewrite Gmi, Gm0. cbn [obind]. eexists. split; [done|]. intros Hle. split; [done|]. apply Qle_bool_iff in Hle.
    intros mi' si' ki' Hmi' Hki' Hmin'. assert (mi' = mi) as -> by congruence. exists m0, s0, q0. split_and!; try done. right.
    rewrite <- (same_min mi si qi si' ki'); try done. intros u q Hu. by destruct (mi_in _ _ _ _ I i mi u q Hmi Hu) as (_&_&?&_). }
  rewrite Euse. cbn [obind].
  assert (exists r, try_open e n call eps w goal (if use then i else 0%nat) c nexp = Ok r /\
    ((r = (true, c, nexp) /\ found c ms) \/ exists c' ms' v', r = (false, c', nexp + 1) /\ ST M c' ms' v' (nexp + 1))) as (r&Er&Hr).
  { destruct use.
    - destruct (Huse eq_refl) as [Hne Hex]. apply (try_open_spec c ms v nexp i mi); try done. lia.
    - apply (try_open_spec c ms v nexp 0 m0); try done; [lia|]. intros m' s' k' Hm' Hk' Hmin'. exists m', s', k'. split_and!; try done. by left. }
  rewrite Er. cbn [obind]. destruct Hr as [[-> Hf]|(c1&ms1&v1&->&S1)]; cbn [fst snd].
  { exists true, c, nexp, ms, v. split_and!; try done; cbn [length]; lia. }
  destruct (IH c1 ms1 v1 (nexp + 1) S1) as (b&c2&nexp2&ms2&v2&E2&S2&L2&F2&_). { intros j Hj. apply Hi. by right. }
  exists b, c2, nexp2, ms2, v2. rewrite E2. split_and!; try done; cbn [length]; lia.
Qed.

Definition reached_limit (clk : nat -> bool) (par : mparams) (maxexp : Z) : Prop :=
  exists i nexp, 0 <= nexp /\ time_limit_reached par maxexp (clk i) nexp = true.
Lemma mha_loop_spec clk par maxexp : forall fuel c ms v nexp nclk, ST M c ms v nexp -> 2 * Z.of_nat (meSize e) - nexp < Z.of_nat fuel ->
  exists b c' nexp' ms' v', mha_loop e fuel clk par maxexp n call eps w goal c nexp nclk = Ok (b, c', nexp') /\ ST M c' ms' v' nexp' /\
    (b = true -> found c' ms') /\
    (b = false -> ms' !! 0%nat = Some ∅ \/ reached_limit clk par maxexp) /\
    (qFirst par = false -> 0 < maxexp -> nexp <= maxexp - 1 + Z.max 1 (Z.of_nat n) -> nexp' <= maxexp - 1 + Z.max 1 (Z.of_nat n)).
Proof.
  induction fuel as [|fuel IH]; intros c ms v nexp nclk S Hf.
  { pose proof (cnt_le c). pose proof (st_cnt _ _ _ _ _ S). lia. }
  pose proof (st_mi _ _ _ _ _ S) as I. pose proof (cnt_le c) as Hcnt. pose proof (st_cnt _ _ _ _ _ S) as Hsc.
  destruct (lookup_lt_is_Some_2 ms 0%nat) as [m0 Hm0]; [rewrite (mi_len _ _ _ _ I); lia|].
  destruct (empty_spec c ms v 0 m0 I Hm0 ltac:(lia)) as (h0&E0&Em0). cbn [mha_loop]. rewrite E0. cbn [obind]. rewrite Em0.
  case_bool_decide as Hb0; cbn [negb andb].
  { exists false, c, nexp, ms, v. split_and!; try done. intros _. left. congruence. }
  destruct (time_limit_reached par maxexp (clk nclk) nexp) eqn:Elim; cbn [negb].
  { exists false, c, nexp, ms, v. split_and!; try done. intros _. right. exists nclk, nexp. split; [lia|done]. }
  assert (qFirst par = false -> 0 < maxexp -> nexp < maxexp) as Hlim.
  { intros Hq Hpos. unfold time_limit_reached in Elim. rewrite Hq in Elim. destruct (negb (Qle_bool (qTime par) 0) && negb (clk nclk)); [done|]. destruct ((maxexp >? 0) && (nexp >=? maxexp)) eqn:EE; [done|lia]. }
  assert (exists b c1 nexp1 ms1 v1, (if (n =? 0)%nat then try_open e n call eps w goal 0 c nexp else heuristic_loop e n call eps w goal (seq 1 n) c nexp) = Ok (b, c1, nexp1) /\
    ST M c1 ms1 v1 nexp1 /\ nexp <= nexp1 <= nexp + Z.max 1 (Z.of_nat n) /\ (b = true -> found c1 ms1) /\ (b = false -> nexp < nexp1)) as (b&c1&nexp1&ms1&v1&E1&S1&L1&F1&G1).
  { destruct (Nat.eqb_spec n 0) as [Hn|Hn].
    - destruct (try_open_spec c ms v nexp 0 m0) as (r&Er&Hr); try done; [lia| |].
      { intros m' s' k' Hm' Hk' Hmin'. exists m', s', k'. split_and!; try done. by left. }
      rewrite Er. destruct Hr as [[-> Hfd]|(c1&ms1&v1&->&S1)].
      + exists true, c, nexp, ms, v. split_and!; try done; lia.
      + exists false, c1, (nexp + 1), ms1, v1. split_and!; try done; lia.
    - destruct (heuristic_loop_spec (seq 1 n) c ms v nexp S) as (b&c1&nexp1&ms1&v1&E1&S1&L1&F1&G1).
      { intros i Hi. apply elem_of_seq in Hi. lia. }
      rewrite seq_length in L1. exists b, c1, nexp1, ms1, v1. split_and!; try done; [lia|lia|]. intros Hbf. apply (G1 Hbf); [|eauto]. destruct n; [done|]. discriminate. }
  rewrite E1. cbn [obind fst snd]. destruct b.
  { exists true, c1, nexp1, ms1, v1. split_and!; try done. intros Hq Hpos _. specialize (Hlim Hq Hpos). lia. }
  specialize (G1 eq_refl). destruct (IH c1 ms1 v1 nexp1 (Datatypes.S nclk) S1 ltac:(lia)) as (b&c2&nexp2&ms2&v2&E2&S2&F2&H2&K2).
  exists b, c2, nexp2, ms2, v2. split_and!; try done. intros Hq Hpos _. apply K2; try done. specialize (Hlim Hq Hpos). lia.
Qed.

(** * Extracting the path *)
Lemma chain_det c s l1 : chain c s l1 -> forall l2, chain c s l2 -> l1 = l2.
Proof.
  intros H. induction H as [s Hs|s p l Hb Hc IH]; intros l2 H2; inversion H2 as [s' Hs'|s' p' l' Hb' Hc']; subst; try congruence.
  assert (p' = p) as -> by congruence. f_equal. by apply IH.
Qed.
Lemma chain_in c s l : chain c s l -> forall u, u ∈ l -> exists l1 l2, l = l1 ++ l2 /\ chain c u l2.
Proof.
  intros H. induction H as [s Hs|s p l Hb Hc IH]; intros u Hu.
  - apply elem_of_list_singleton in Hu as ->. exists [], [s]. split; [done|]. by apply ch_one.
  - apply elem_of_cons in Hu as [->|Hu]; [exists [], (s :: l); split; [done|by apply (ch_step _ _ p)]|].
    destruct (IH u Hu) as (l1&l2&->&?). by exists (s :: l1), l2.
Qed.
Lemma chain_nodup c s l : chain c s l -> NoDup l.
Proof.
  intros H. induction H as [s Hs|s p l Hb Hc IH]; [apply NoDup_singleton|]. apply NoDup_cons. split; [|done]. intros Hin.
  destruct (chain_in c p l Hc s Hin) as (l1&l2&->&H2). pose proof (chain_det c s _ H2 _ (ch_step _ _ p _ Hb Hc)) as Heq.
  apply (f_equal length) in Heq. cbn [length] in Heq. rewrite app_length in Heq. lia.
Qed.
Lemma chain_start c ms v pend s l : MI c ms v pend -> chain c s l -> g c s < INFINITECOST ->
  exists C, route (fun x => x) (medge e) (reverse l) start s C /\ C <= g c s.
Proof.
  intros I H. induction H as [s Hs|s p l Hb Hc IH]; intros Hg.
  - destruct (mi_some _ _ _ _ I s Hg) as [->|[p Hp]]; [|congruence]. exists 0. split; [|apply (mi_g _ _ _ _ I)]. apply route_one.
  - destruct (mi_bp _ _ _ _ I s p Hb) as [_ (x&Hx&Hgx)]. destruct (gm_edge _ _ _ HG p s x Hx).
    destruct IH as (C&HC&HCg); [lia|]. exists (C + x). split; [|lia]. rewrite reverse_cons. apply (route_snoc (fun x => x) (medge e) (reverse l) start p C s x); done.
Qed.
Lemma extract_spec c ms v pend s l : MI c ms v pend -> chain c s l -> live c s -> forall fuel path cost, (length l <= fuel)%nat ->
  exists z, extract fuel c s path cost = Ok (path ++ l, cost + (g c s - g c z)) /\ bp c z = None /\ last l = Some z /\ g c z <= g c s.
Proof.
  intros I H. induction H as [s Hs|s p l Hb Hc IH]; intros Hlv fuel path cost Hf; (destruct fuel as [|fuel]; [cbn in Hf; lia|]); cbn [extract]; rewrite (live_rdm c s Hlv); cbn [obind].
  - rewrite Hs. exists s. split; [|split_and!; try done; lia]. do 2 f_equal. lia.
  - rewrite Hb. destruct (mi_bp _ _ _ _ I s p Hb) as [Hgs (x&Hx&Hgx)]. destruct (gm_edge _ _ _ HG p s x Hx).
    assert (live c p) as Hlp by (apply fin_live; lia). rewrite (live_rdm c p Hlp). cbn [obind].
    destruct (IH Hlp fuel (path ++ [s]) (cost + (g c s - g c p))) as (z&E&Hz&Hlast&Hgz); [cbn in Hf; lia|].
    exists z. rewrite E. split; [do 2 f_equal; [by rewrite <- app_assoc|lia]|]. split; [done|]. split; [rewrite last_cons, Hlast; done|lia].
Qed.
Lemma extract_path_spec c ms v pend : MI c ms v pend ->
  exists path cost, extract_path c goal = Ok (path, cost) /\
    ((g c goal < INFINITECOST /\ cost = g c goal /\ exists C, route (fun x => x) (medge e) path start goal C /\ C <= cost) \/
     (g c goal = INFINITECOST /\ path = [goal] /\ cost = 0 /\ goal <> start)).
Proof.
  intros I. unfold extract_path. pose proof (mi_goal _ _ _ _ I) as Hlv. pose proof (mi_g _ _ _ _ I goal) as Hr.
  assert (exists l, chain c goal l /\ (g c goal = INFINITECOST -> l = [goal])) as (l&Hl&Hl1).
  { destruct (Z_lt_ge_dec (g c goal) INFINITECOST) as [Hlt|Hge].
    - destruct (mi_chain _ _ _ _ I goal Hlt) as [l Hl]. exists l. split; [done|lia].
    - exists [goal]. split; [|done]. apply ch_one. destruct (bp c goal) as [p|] eqn:Ep; [|done]. destruct (mi_bp _ _ _ _ I goal p Ep). lia. }
  assert (length l <= size (mSt c))%nat as Hlen.
  { rewrite <- (size_dom (D := gset nat)). rewrite <- (size_list_to_set (C := gset nat)) by (by apply (chain_nodup c goal)).
    apply subseteq_size. intros u Hu. apply elem_of_list_to_set in Hu. apply elem_of_dom.
    assert (live c u) as Hlu; [|destruct (live_lk c u Hlu) as [-> _]; eauto].
    destruct (decide (u = goal)) as [->|Hug]; [done|]. apply fin_live.
    destruct (Z_lt_ge_dec (g c goal) INFINITECOST) as [Hlt|Hge]; [|rewrite Hl1 in Hu by lia; by apply elem_of_list_singleton in Hu].
    pose proof (chain_g _ _ _ _ _ _ I Hl u Hu). lia. }
  destruct (extract_spec c ms v pend goal l I Hl Hlv (Datatypes.S (size (mSt c))) [] 0) as (z&E&Hz&Hlast&Hgz); [lia|].
  rewrite E. cbn [obind fst snd app]. exists (reverse l), (0 + (g c goal - g c z)). split; [done|].
  destruct (Z_lt_ge_dec (g c goal) INFINITECOST) as [Hlt|Hge].
  - left. destruct (mi_some _ _ _ _ I z) as [->|[p Hp]]; [lia| |congruence]. rewrite (proj1 (mi_start _ _ _ _ I)). split; [done|]. split; [lia|].
    destruct (chain_start c ms v pend goal l I Hl Hlt) as (C&?&?). exists C. split; [done|lia].
  - right. rewrite Hl1 in * by lia. cbn in Hlast. injection Hlast as <-. split_and!; [lia|done|lia|]. intros Heq. pose proof (proj1 (mi_start _ _ _ _ I)). rewrite <- Heq in *. unfold INFINITECOST in *. lia.
Qed.

(** * Starting a search *)
Definition PIc (c : mcore) : Prop :=
  (exists ms, Forall2 rp (mOpen c) ms /\ length ms = Datatypes.S n) /\ (forall s a, mSt c !! s = Some a -> (s < meSize e)%nat /\ mCall a < call).
Lemma clear_open_spec : forall is_ c ms, Forall2 rp (mOpen c) ms -> (forall i, i ∈ is_ -> (i < length ms)%nat) ->
  exists c' ms', clear_open is_ c = Ok c' /\ mSt c' = mSt c /\ Forall2 rp (mOpen c') ms' /\ length ms' = length ms /\
   (forall i, i ∈ is_ -> ms' !! i = Some ∅) /\ (forall i, i ∉ is_ -> ms' !! i = ms !! i).
Proof.
  induction is_ as [|i is_ IH]; intros c ms HR Hi.
  { exists c, ms. split_and!; try done. intros i Hin. by apply elem_of_nil in Hin. }
  destruct (heap_at_ok c ms i HR (Hi i ltac:(left))) as (h&m&E1&E2&E3&[R O]).
  cbn [clear_open]. rewrite E1. cbn [obind]. destruct (makeemptyheap_spec ckeyops h m R) as (h'&Eh&R'&O'). rewrite Eh. cbn [obind mlift].
  destruct (IH (set_heap c i h') (<[i := ∅]> ms)) as (c'&ms'&E5&S2&R2&L2&P2&Q2).
  { unfold set_heap. cbn [mOpen]. by apply Forall2_set. }
  { intros j Hj. rewrite insert_length. apply Hi. by right. }
  assert (i < length ms)%nat as Hil by (apply Hi; left). rewrite insert_length in L2.
  exists c', ms'. split_and!; try done.
  - intros j Hj. destruct (decide (j ∈ is_)) as [Hin|Hnin]; [by apply P2|]. apply elem_of_cons in Hj as [->|?]; [|done]. rewrite Q2 by done. by rewrite list_lookup_insert.
  - intros j Hj. rewrite Q2 by (intros ?; apply Hj; by right). rewrite list_lookup_insert_ne; [done|]. intros ->. apply Hj. by left.
Qed.
Lemma reinit_spec c ms t a : mSt c !! t = Some a -> Forall2 rp (mOpen c) ms -> (forall i m, ms !! i = Some m -> m !! t = None) ->
  exists c', reinit_state e n call c t = Ok c' /\ (forall s, lkm c' s = lkm c s) /\ live c' t /\ (forall s, live c s -> live c' s) /\ Forall2 rp (mOpen c') ms /\
    (forall s, is_Some (mSt c' !! s) <-> is_Some (mSt c !! s)) /\ (forall s b, mSt c' !! s = Some b -> mSt c !! s = Some b \/ mCall b = call).
Proof.
  intros Ha HR Hn. unfold reinit_state. rewrite Ha. destruct (Z.eqb_spec (mCall a) call) as [Hc|Hc].
  { exists c. split_and!; try done; [by exists a|]. intros s b ?. by left. }
  exists (set_mst (clear_indices c t) t (mkM call INFINITECOST None false false (heurs e n t))). split; [done|].
  assert (forall s, s <> t -> mSt (set_mst (clear_indices c t) t (mkM call INFINITECOST None false false (heurs e n t))) !! s = mSt c !! s) as Hoth.
  { intros s Hs. unfold set_mst, clear_indices. cbn [mSt]. by rewrite lookup_insert_ne. }
  assert (mSt (set_mst (clear_indices c t) t (mkM call INFINITECOST None false false (heurs e n t))) !! t = Some (fresh t)) as Hself.
  { unfold set_mst. cbn [mSt]. by rewrite lookup_insert. }
  split_and!.
  - intros s. unfold lkm. destruct (decide (s = t)) as [->|Hs]; [|by rewrite Hoth]. rewrite Hself, Ha. cbn [fresh mCall]. rewrite Z.eqb_refl. destruct (Z.eqb_spec (mCall a) call); done.
  - by exists (fresh t).
  - intros s (b&Hb&Hb2). exists b. rewrite Hoth; [done|]. intros ->. congruence.
  - unfold set_mst. cbn [mOpen]. by apply clear_rep.
  - intros s. destruct (decide (s = t)) as [->|Hs]; [rewrite Hself, Ha; split; eauto|by rewrite Hoth].
  - intros s b. destruct (decide (s = t)) as [->|Hs]; [rewrite Hself; intros [= <-]; by right|rewrite Hoth by done; by left].
Qed.
Lemma insert_start_spec : forall is_ c ms, Forall2 rp (mOpen c) ms -> live c start -> mHs (lkm c start) = heurs e n start -> g c start = 0 -> NoDup is_ -> length ms = Datatypes.S n ->
  (forall i, i ∈ is_ -> (i <= n)%nat /\ ms !! i = Some ∅) ->
  exists c' ms', insert_start eps start is_ c = Ok c' /\ mSt c' = mSt c /\ Forall2 rp (mOpen c') ms' /\ length ms' = Datatypes.S n /\
   (forall i, i ∈ is_ -> ms' !! i = Some {[ start := mkKey (tk i start) 0 ]}) /\ (forall i, i ∉ is_ -> ms' !! i = ms !! i).
Proof.
  induction is_ as [|i is_ IH]; intros c ms HR Hlv Hhs Hg Hnd Hlen Hi.
  { exists c, ms. split_and!; try done. intros i Hin. by apply elem_of_nil in Hin. }
  apply NoDup_cons in Hnd as [Hnin Hnd]. destruct (Hi i ltac:(left)) as [Hi1 Hi2].
  destruct (key_val (lkm c start) start i Hhs) as (Ek&_); [rewrite Hg; unfold INFINITECOST; lia|lia|].
  destruct (heap_at_ok c ms i HR) as (h&m&E1&_&E3&[R O]); [lia|]. assert (m = ∅) as -> by congruence.
  cbn [insert_start]. rewrite (live_rdm c start Hlv). cbn [obind]. rewrite Ek. cbn [obind]. rewrite E1. cbn [obind]. rewrite Hg. replace (0 + tk i start) with (tk i start) by lia.
  destruct (insertheap_spec ckeyops ckeylaws h ∅ start (mkKey (tk i start) 0) R O) as (h'&Eh&R'&O'); [done|rewrite map_size_empty; unfold HEAPSIZE; lia|].
  rewrite Eh. cbn [obind mlift].
  destruct (IH (set_heap c i h') (<[i := <[start := mkKey (tk i start) 0]> ∅]> ms)) as (c'&ms'&E5&S5&R5&L5&P5&Q5); try done.
  { unfold set_heap. cbn [mOpen]. by apply Forall2_set. }
  { by rewrite insert_length. }
  { intros j Hj. destruct (Hi j ltac:(by right)) as [? ?]. split; [done|]. rewrite list_lookup_insert_ne; [done|]. intros ->. done. }
  exists c', ms'. split_and!; try done.
  - intros j Hj. destruct (decide (j ∈ is_)) as [Hin|Hnj]; [by apply P5|]. apply elem_of_cons in Hj as [->|?]; [|done]. rewrite Q5 by done. rewrite list_lookup_insert by lia. done.
  - intros j Hj. rewrite Q5 by (intros ?; apply Hj; by right). rewrite list_lookup_insert_ne; [done|]. intros ->. apply Hj. by left.
Qed.
Lemma init_spec c : PIc c -> is_Some (mSt c !! start) -> is_Some (mSt c !! goal) -> exists c0 c1 c2 c4 ms v,
  clear_open (seq 0 (Datatypes.S n)) c = Ok c0 /\ reinit_state e n call c0 goal = Ok c1 /\ reinit_state e n call c1 start = Ok c2 /\
  rdm c2 start = Ok (lkm c2 start) /\
  (let a := lkm c2 start in insert_start eps start (seq 0 (Datatypes.S n)) (set_mst c2 start (mkM (mCall a) 0 (mBp a) (mAnc a) (mAdd a) (mHs a)))) = Ok c4 /\
  ST M c4 ms v 0.
Proof.
  intros [(ms&HR&Hlen) Hdom] Hst Hgl.
  destruct (clear_open_spec (seq 0 (Datatypes.S n)) c ms HR) as (c0&ms0&E0&S0&R0&L0&P0&_). { intros i Hi. apply elem_of_seq in Hi. lia. }
  assert (forall i m, ms0 !! i = Some m -> m = ∅) as Hemp.
  { intros i m Hm. pose proof (lookup_lt_Some _ _ _ Hm). rewrite P0 in Hm by (apply elem_of_seq; lia). congruence. }
  destruct Hgl as [ag Hag]. rewrite <- S0 in Hag. destruct (reinit_spec c0 ms0 goal ag Hag R0) as (c1&E1&HL1&Hlg1&HV1&R1&D1&K1).
  { intros i m Hm. by rewrite (Hemp i m Hm). }
  destruct (mSt c1 !! start) as [as_|] eqn:Has. 2:{ exfalso. rewrite <- S0 in Hst. apply D1 in Hst as [? ?]. congruence. }
  destruct (reinit_spec c1 ms0 start as_ Has R1) as (c2&E2&HL2&Hls2&HV2&R2&D2&K2).
  { intros i m Hm. by rewrite (Hemp i m Hm). }
  set (a := lkm c2 start). set (c3 := set_mst c2 start (mkM (mCall a) 0 (mBp a) (mAnc a) (mAdd a) (mHs a))).
  assert (forall s, lkm c s = fresh s) as HF.
  { intros s. apply dead_lk. intros (b&Hb&Hb2). destruct (Hdom s b Hb). lia. }
  assert (forall s, lkm c2 s = fresh s) as HF2. { intros s. rewrite HL2, HL1. unfold lkm at 1. rewrite S0. apply HF. }
  assert (a = fresh start) as Ha by apply HF2.
  assert (forall s, lkm c3 s = if decide (s = start) then mkM call 0 None false false (heurs e n start) else fresh s) as HL3.
  { intros s. unfold c3. rewrite lkm_set; [|by rewrite Ha]. rewrite Ha. destruct (decide (s = start)); [done|apply HF2]. }
  destruct (insert_start_spec (seq 0 (Datatypes.S n)) c3 ms0) as (c4&ms4&E4&S4&R4&L4&P4&_).
  { done. } { unfold c3. apply live_set; [by rewrite Ha|by right]. } { rewrite HL3. by destruct (decide (start = start)). } { rewrite HL3. by destruct (decide (start = start)). }
  { apply NoDup_seq. } { lia. } { intros i Hi. pose proof Hi as Hi'. apply elem_of_seq in Hi. split; [lia|]. by apply P0. }
  exists c0, c1, c2, c4, ms4, (fun _ => INFINITECOST). split_and!; try done; [by apply live_rdm|].
  assert (forall s, lkm c4 s = if decide (s = start) then mkM call 0 None false false (heurs e n start) else fresh s) as HL4.
  { intros s. rewrite <- HL3. unfold lkm. by rewrite S4. }
  assert (forall s, live c2 s -> live c4 s) as HV4.
  { intros s Hs. unfold live. rewrite S4. apply live_set; [by rewrite Ha|by left]. }
  assert (forall s, anc c4 s = false /\ add c4 s = false /\ bp c4 s = None /\ mHs (lkm c4 s) = heurs e n s) as HA.
  { intros s. rewrite HL4. destruct (decide (s = start)) as [->|]; done. }
  assert (forall s, g c4 s = if decide (s = start) then 0 else INFINITECOST) as HGv.
  { intros s. rewrite HL4. destruct (decide (s = start)); done. }
  assert (forall i m, ms4 !! i = Some m -> m = {[ start := mkKey (tk i start) 0 ]} /\ (i <= n)%nat) as Hms4.
  { intros i m Hm. pose proof (lookup_lt_Some _ _ _ Hm). rewrite P4 in Hm by (apply elem_of_seq; lia). split; [congruence|lia]. }
  assert (0 <= INFINITECOST) as Hinf by (unfold INFINITECOST; lia).
  split; [|done| | |lia|].
  - split.
    + intros s b Hb. rewrite S4 in Hb. unfold c3, set_mst in Hb. cbn [mSt] in Hb. 
      assert (forall b, mSt c2 !! s = Some b -> (s < meSize e)%nat /\ mCall b <= call) as Hc2.
      { intros b' Hb'. assert (is_Some (mSt c !! s)) as [x Hx]. { rewrite <- S0. apply D1, D2. eauto. }
        destruct (Hdom s x Hx). split; [done|]. destruct (K2 s b' Hb') as [Hk2|Hk2]; [|lia]. destruct (K1 s b' Hk2) as [Hk1|Hk1]; [|lia].
        rewrite S0 in Hk1. destruct (Hdom s b' Hk1). lia. }
      destruct (decide (s = start)) as [->|Hs].
      * rewrite lookup_insert in Hb. injection Hb as <-. destruct (live_lk c2 start Hls2) as [Hl _]. destruct (Hc2 _ Hl). cbn [mCall]. unfold a. done.
      * rewrite lookup_insert_ne in Hb by done. by apply Hc2.
    + intros s. apply HA.
    + done.
    + done.
    + intros i m s k Hm Hk. destruct (Hms4 i m Hm) as [-> Hin]. apply lookup_singleton_Some in Hk as [<- <-]. destruct (HA start) as (->&->&_&_).
      rewrite HGv. destruct (decide (start = start)); [|done]. cbn [k0 k1].
      destruct (key_val (fresh start) start i eq_refl) as (_&Hk0&_); [cbn [fresh mG]; lia|done|]. split_and!; try done; try (unfold INFINITECOST; lia). intros ->. lia.
    + rewrite HGv. destruct (decide (start = start)); [|done]. split; [done|]. apply HA.
    + apply HV4, HV2, Hlg1.
    + intros s. rewrite HGv. destruct (decide (s = start)); lia.
    + intros s p. destruct (HA s) as (_&_&->&_). done.
    + intros s. rewrite HGv. destruct (decide (s = start)); [by left|lia].
    + intros s _. exists [s]. apply ch_one. apply HA.
    + intros s. rewrite HGv. destruct (decide (s = start)); lia.
    + intros s t x Hv. lia.
    + intros s. rewrite HGv. destruct (decide (s = start)) as [->|]; [|by right; left]. left. exists {[ start := mkKey (tk 0 start) 0 ]}. rewrite P4 by (apply elem_of_seq; lia). split; [done|]. rewrite lookup_singleton. eauto.
    + intros s. destruct (HA s) as (->&->&_). split; [lia|]. intros [?|?]; done.
    + intros s l C _ Hc. destruct (HA s) as (Hx&_). congruence.
  - unfold cnt. assert (forall (P : nat -> bool) l, (forall u, P u = false) -> length (filter (fun u => P u = true) l) = 0%nat) as Hz.
    { intros P l HP. induction l as [|y l IH]; [done|]. rewrite filter_cons, HP. done. }
    rewrite (Hz (fun s => anc c4 s)) by apply HA. rewrite (Hz (fun s => add c4 s)) by apply HA. done.
  - intros s. rewrite HGv. destruct (decide (s = start)); lia.
  - intros i m s k Hm Hk. destruct (Hms4 i m Hm) as [-> Hin]. apply lookup_singleton_Some in Hk as [<- <-]. cbn [k0]. lia.
Qed.
End run.
