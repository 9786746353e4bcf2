From Coq Require Import ZifyBool ZifyNat QArith Qround Lqa.
From Verif Require Import Base KeyModel HeapModel HeapProofs ListModel ListProofs AngleModel AngleProofs AraModel AraSpec.
Local Open Scope Z_scope.

(** * Arithmetic of priorities *)
Lemma Qtrunc_floor x : (0 <= x)%Q -> Qtrunc x = Qfloor x.
Proof.
  intros Hx. unfold Qtrunc, Qfloor. destruct x as [n d]. unfold Qle in Hx. cbn in *. apply Z.quot_div_nonneg; lia.
Qed.
Section arith.
Context (E : Q) (eps : Q) (Heps : (0 <= eps <= E)%Q).
Lemma toint_nonneg h : 0 <= h -> (E * inject_Z h < inject_Z 2147483648)%Q ->
  toint (eps * inject_Z h) = Qfloor (eps * inject_Z h) /\ 0 <= toint (eps * inject_Z h) < 2147483648.
Proof using Heps.
  intros Hh HE. assert (0 <= inject_Z h)%Q as Hh' by (rewrite <- (Zle_Qle 0); done).
  assert (0 <= eps * inject_Z h)%Q as H0 by nra.
  assert (eps * inject_Z h < inject_Z 2147483648)%Q as H1 by nra.
  assert (0 <= Qfloor (eps * inject_Z h)) as Hf by (apply (Qfloor_resp_le 0 _ H0)).
  assert (Qfloor (eps * inject_Z h) < 2147483648) as Hf2.
  { rewrite Zlt_Qlt. pose proof (Qfloor_le (eps * inject_Z h)) as Hle. lra. }
  unfold toint. rewrite (Qtrunc_floor _ H0).
  replace ((-2147483648 <=? Qfloor (eps * inject_Z h)) && (Qfloor (eps * inject_Z h) <? 2147483648)) with true by lia. lia.
Qed.
Lemma toint_step h1 h2 c : 0 <= h1 -> 0 <= h2 -> h1 <= c + h2 ->
  (E * inject_Z h1 < inject_Z 2147483648)%Q -> (E * inject_Z h2 < inject_Z 2147483648)%Q ->
  toint (eps * inject_Z h1) <= inflate eps c + toint (eps * inject_Z h2).
Proof using Heps.
  intros H1 H2 Hc HE1 HE2. destruct (toint_nonneg h1 H1 HE1) as [-> _], (toint_nonneg h2 H2 HE2) as [-> _].
  assert (Qceiling (eps * inject_Z c) <= inflate eps c) by (unfold inflate; lia).
  assert (Qfloor (eps * inject_Z h1) <= Qceiling (eps * inject_Z c) + Qfloor (eps * inject_Z h2)); [|lia].
  pose proof (Qceiling_lt (eps * inject_Z c)) as K1. pose proof (Qle_ceiling (eps * inject_Z c)) as K2.
  pose proof (Qlt_floor (eps * inject_Z h2)) as K3. pose proof (Qfloor_le (eps * inject_Z h1)) as K4.
  assert (inject_Z h1 <= inject_Z c + inject_Z h2)%Q as K5 by (rewrite <- inject_Z_plus, <- Zle_Qle; done).
  assert (eps * inject_Z h1 <= eps * inject_Z c + eps * inject_Z h2)%Q as K6.
  { rewrite <- Qmult_plus_distr_r. destruct Heps. nra. }
  assert (Qfloor (eps * inject_Z h1) < Qceiling (eps * inject_Z c) + Qfloor (eps * inject_Z h2) + 1); [|lia].
  rewrite Zlt_Qlt, !inject_Z_plus. rewrite inject_Z_plus in K3. lra.
Qed.
End arith.
Lemma inflate_ge eps c : c <= inflate eps c.
Proof. unfold inflate. lia. Qed.
Lemma fkey_eq eps g h : 0 <= g <= INFINITECOST -> 0 <= toint (eps * inject_Z h) < 2147483648 ->
  fkey eps g h = mkKey (g + toint (eps * inject_Z h)) 0.
Proof. intros Hg Ht. unfold fkey, u32. rewrite Z.mod_small; [done|]. unfold INFINITECOST in Hg. lia. Qed.

Lemma kle_k0 a b : kle ckeyops a b -> k1 a = 0 -> k1 b = 0 -> k0 a <= k0 b.
Proof. unfold kle. simpl. unfold key_lt. lia. Qed.

(** * What a search sees of a state *)
Section search.
Context (G : nat -> list (nat * Z)) (e : aenv) (fwd con : bool) (E : Q).
Context (Hge : good_env fwd E G e).

Definition lk (call : Z) (c : core) (s : nat) : astate :=
  match cSt c !! s with
  | Some a => if sCall a =? call then a else fresh_info e fwd call true s
  | None => fresh_info e fwd call true s
  end.
Definition lB (a : astate) : option nat := if fwd then sPred a else sNext a.
Notation H s := (heur fwd e s).
Lemma fresh_H call s : sH (fresh_info e fwd call true s) = H s.
Proof. reflexivity. Qed.
Definition hvalid (c : core) : Prop := forall s a, cSt c !! s = Some a -> sH a = H s.
Lemma lk_H call c s : hvalid c -> sH (lk call c s) = H s.
Proof. intros Hv. unfold lk. destruct (cSt c !! s) as [a|] eqn:Es; [destruct (sCall a =? call)|]; try done. by apply Hv. Qed.
Lemma lk_call call c s : sCall (lk call c s) = call.
Proof. unfold lk. destruct (cSt c !! s) as [a|] eqn:Es; [destruct (sCall a =? call) eqn:E1|]; try done. lia. Qed.
Lemma lk_set call c t a s : sCall a = call -> lk call (set_st c t a) s = if decide (s = t) then a else lk call c s.
Proof.
  intros Ha. unfold lk, set_st. simpl. destruct (decide (s = t)) as [->|Hn].
  - rewrite lookup_insert, Ha, Z.eqb_refl. done.
  - by rewrite lookup_insert_ne.
Qed.
Definition current (call : Z) (c : core) (s : nat) : Prop := exists a, cSt c !! s = Some a /\ sCall a = call.
Lemma lk_current call c s a : cSt c !! s = Some a -> sCall a = call -> lk call c s = a.
Proof. intros Es Ec. unfold lk. by rewrite Es, Ec, Z.eqb_refl. Qed.
Lemma lk_finite call c s : sG (lk call c s) < INFINITECOST \/ sV (lk call c s) < INFINITECOST ->
  exists a, cSt c !! s = Some a /\ sCall a = call /\ lk call c s = a.
Proof.
  unfold lk. destruct (cSt c !! s) as [a|] eqn:Es; [|simpl; lia].
  destruct (sCall a =? call) eqn:E1; [|simpl; lia]. intros _. exists a. split_and!; [done|lia|done].
Qed.
Lemma rdst_finite call c s : sG (lk call c s) < INFINITECOST \/ sV (lk call c s) < INFINITECOST -> rdst c s = Ok (lk call c s).
Proof. intros Hf. apply lk_finite in Hf as (a&Es&_&El). unfold rdst. by rewrite Es, El. Qed.
Lemma rdst_current call c s : current call c s -> rdst c s = Ok (lk call c s).
Proof. intros (a&Es&Ec). unfold rdst. by rewrite Es, (lk_current _ _ _ _ Es Ec). Qed.

(** Routes of the search graph from [start], extended at the end. *)
Inductive sr (W : Z -> Z) (start : nat) : nat -> Z -> Prop :=
| sr_0 : sr W start start 0
| sr_S s t c C : sr W start s C -> (t, c) ∈ G s -> sr W start t (C + W c).

Notation inz z s := (s ∈ z.*2).
Notation gl call c s := (sG (lk call c s)).
Notation vl call c s := (sV (lk call c s)).
Notation il call c s := (sIter (lk call c s)).

Record cinv (call iter : Z) (start : nat) (pend : option (nat * list (nat * Z))) (c : core) (m : gmap nat ckey) (z : list (nat * nat)) : Prop := {
  ci_rep : rep (cOpen c) m;
  ci_ord : ord ckeyops 1 (cOpen c);
  ci_lrep : lrep (cInc c) z;
  ci_k1 : forall s k, m !! s = Some k -> k1 k = 0;
  ci_dom : forall s a, cSt c !! s = Some a -> (s < eSize e)%nat /\ 0 <= sCall a <= call;
  ci_g : forall s, 0 <= gl call c s <= vl call c s /\ vl call c s <= INFINITECOST;
  ci_inc : forall s, gl call c s < vl call c s <-> is_Some (m !! s) \/ inz z s;
  ci_disj : forall s, is_Some (m !! s) -> ~ inz z s;
  ci_iter : forall s, 0 <= il call c s <= iter;
  ci_start : gl call c start = 0;
  ci_back : forall s, gl call c s < INFINITECOST -> s <> start -> exists p w, lB (lk call c s) = Some p /\ (s, w) ∈ G p /\
    vl call c p < INFINITECOST /\ vl call c p + w <= gl call c s;
  ci_edge : forall s t w, vl call c s < INFINITECOST -> (t, w) ∈ G s -> gl call c t <= vl call c s + w \/
    exists l, pend = Some (s, l) /\ (t, w) ∈ l
}.
Record iinv (eps : Q) (call iter : Z) (start : nat) (c : core) (m : gmap nat ckey) (z : list (nat * nat)) : Prop := {
  ii_open : forall s, is_Some (m !! s) -> il call c s <> iter;
  ii_inc : forall s, inz z s -> il call c s = iter;
  ii_closed : forall s, il call c s = iter -> vl call c s < INFINITECOST;
  ii_bound : con = true -> forall s C, il call c s = iter -> sr (inflate eps) start s C -> vl call c s <= C
}.
Definition kinv (eps : Q) (call : Z) (c : core) (m : gmap nat ckey) : Prop :=
  forall s k, m !! s = Some k -> k = fkey eps (gl call c s) (H s).

Lemma cinv_subset call iter start pend c m z : cinv call iter start pend c m z ->
  (dom m : gset nat) ∪ list_to_set (z.*2) ⊆ set_seq 0 (eSize e) /\
  size ((dom m : gset nat) ∪ list_to_set (z.*2)) = (size m + length z)%nat.
Proof.
  intros I. split.
  - intros s Hs. apply elem_of_set_seq. split; [lia|]. cbn.
    assert (gl call c s < vl call c s) as Hlt.
    { apply (ci_inc _ _ _ _ _ _ _ I). rewrite elem_of_union, elem_of_dom, elem_of_list_to_set in Hs. done. }
    destruct (lk_finite call c s) as (a&Ea&_).
    { pose proof (ci_g _ _ _ _ _ _ _ I s). lia. }
    by apply (ci_dom _ _ _ _ _ _ _ I s a).
  - rewrite size_union.
    + rewrite size_dom, size_list_to_set, fmap_length; [done|]. apply (ci_lrep _ _ _ _ _ _ _ I).
    + intros s. rewrite elem_of_dom, elem_of_list_to_set. apply (ci_disj _ _ _ _ _ _ _ I).
Qed.
Lemma cinv_size call iter start pend c m z : cinv call iter start pend c m z -> (size m + length z <= eSize e)%nat.
Proof.
  intros I. destruct (cinv_subset _ _ _ _ _ _ _ I) as [Hs <-]. apply subseteq_size in Hs. by rewrite size_set_seq in Hs.
Qed.
Lemma cinv_room call iter start pend c m z t : cinv call iter start pend c m z -> (t < eSize e)%nat ->
  m !! t = None -> ~ inz z t -> (size m + length z < eSize e)%nat.
Proof.
  intros I Ht Hm Hz. destruct (cinv_subset _ _ _ _ _ _ _ I) as [Hs <-].
  rewrite <- (size_set_seq (C:=gset nat) 0 (eSize e)) . apply subset_size. split; [done|].
  intros Hs'. assert (t ∈ (dom m : gset nat) ∪ list_to_set (z.*2)) as Hin.
  { apply Hs', elem_of_set_seq. lia. }
  rewrite elem_of_union, elem_of_dom, elem_of_list_to_set, Hm in Hin. destruct Hin as [[? [=]]|?]; done.
Qed.

(** ReInitializeSearchStateInfo of a state that is not current changes nothing the search sees. *)
Lemma reinit_lk call c t s : ~ current call c t -> lk call (ReInitializeSearchStateInfo e fwd call true c t) s = lk call c s.
Proof.
  intros Hn. unfold lk at 1. simpl. destruct (decide (s = t)) as [->|Hs].
  - rewrite lookup_insert. simpl. rewrite Z.eqb_refl. unfold lk. destruct (cSt c !! t) as [a|] eqn:Et; [|done].
    destruct (sCall a =? call) eqn:Ec; [|done]. exfalso. apply Hn. exists a. split; [done|lia].
  - by rewrite lookup_insert_ne.
Qed.
Lemma not_current_none call iter start pend c m z t : cinv call iter start pend c m z -> ~ current call c t ->
  m !! t = None /\ ~ inz z t.
Proof.
  intros I Hn. assert (~ (gl call c t < vl call c t)) as Hlt.
  { intros Hlt. apply Hn. destruct (lk_finite call c t) as (a&?&?&_); [|by exists a].
    pose proof (ci_g _ _ _ _ _ _ _ I t). lia. }
  rewrite (ci_inc _ _ _ _ _ _ _ I) in Hlt. split; [|tauto].
  destruct (m !! t) eqn:Em; [|done]. exfalso. apply Hlt. left. eauto.
Qed.
Lemma idx_rep (h : heap ckey) m t : rep h m -> m !! t = None -> rep (set_idx h t 0) m.
Proof.
  intros R Hn. pose proof (proj1 (rep_none h m t R) Hn) as H0.
  assert (forall s, idxof (set_idx h t 0) s = idxof h s) as Hidx.
  { intros s. unfold idxof, set_idx. simpl. destruct (decide (s = t)) as [->|Hs].
    - rewrite lookup_insert. simpl. symmetry. exact H0.
    - by rewrite lookup_insert_ne. }
  destruct R as (R1&R2&R3&R4&R5). unfold repx. split_and!; try done.
  - intros i Hi. destruct (R3 i Hi) as (s&k&?&?&?). exists s, k. by rewrite Hidx.
  - intros s k Hk. rewrite Hidx. by apply R4.
  - intros s Hs. rewrite Hidx. by apply R5.
Qed.
Lemma elem_lrep l z t : lrep l z -> ~ inz z t ->
  lrep (mkList (cfirst l) (clast l) (csize l) (nodes l) (delete t (elem l)) (nextaddr l)) z.
Proof.
  intros L Hn. destruct L as (L1&L2&L3&L4&L5&L6&L7&L8). unfold lrep. simpl. split_and!; try done.
  intros s a. destruct (decide (s = t)) as [->|Hs].
  - rewrite lookup_delete. split; [done|]. intros Hin. exfalso. apply Hn. apply elem_of_list_fmap. by exists (a, t).
  - by rewrite lookup_delete_ne.
Qed.
Lemma reinit_cinv call iter start pend c m z t : cinv call iter start pend c m z -> ~ current call c t -> (t < eSize e)%nat ->
  0 <= call -> cinv call iter start pend (ReInitializeSearchStateInfo e fwd call true c t) m z.
Proof.
  intros I Hn Ht Hc. destruct (not_current_none _ _ _ _ _ _ _ t I Hn) as [Hm Hz].
  pose proof (fun s => reinit_lk call c t s Hn) as HL. destruct I. split; try (intros; rewrite ?HL in *; eauto; fail).
  - by apply idx_rep.
  - by apply elem_lrep.
  - intros s a Hs. simpl in Hs. destruct (decide (s = t)) as [->|Hst].
    + rewrite lookup_insert in Hs. injection Hs as <-. simpl. lia.
    + rewrite lookup_insert_ne in Hs by done. eauto.
  - intros s. rewrite HL. intros Hg Hs. destruct (ci_back0 s Hg Hs) as (p&w&?&?&?&?). exists p, w. rewrite HL. done.
Qed.
Lemma reinit_hvalid call c t : hvalid c -> hvalid (ReInitializeSearchStateInfo e fwd call true c t).
Proof.
  intros Hv s a Hs. simpl in Hs. destruct (decide (s = t)) as [->|Hst].
  - rewrite lookup_insert in Hs. injection Hs as <-. done.
  - rewrite lookup_insert_ne in Hs by done. by apply Hv.
Qed.
Lemma current_dec call c t : current call c t \/ ~ current call c t.
Proof.
  unfold current. destruct (cSt c !! t) as [a|]; [|right; naive_solver].
  destruct (decide (sCall a = call)); [left; eauto|right; naive_solver].
Qed.
Lemma refresh_eq call c t : refresh e fwd call true c t = 
  match cSt c !! t with None => UB | Some a => Ok (if sCall a =? call then c else ReInitializeSearchStateInfo e fwd call true c t) end.
Proof. unfold refresh, rdst. by destruct (cSt c !! t). Qed.
(** GetState followed by the call-number check. *)
Lemma get_refresh call iter start pend c m z t : cinv call iter start pend c m z -> hvalid c -> 0 <= call -> (t < eSize e)%nat ->
  exists c', (do c <- GetState e fwd call true c t; refresh e fwd call true c t) = Ok c' /\
    cinv call iter start pend c' m z /\ hvalid c' /\ current call c' t /\ (forall s, lk call c' s = lk call c s) /\ 
    (forall s, is_Some (cSt c !! s) -> is_Some (cSt c' !! s)) /\ (forall s, current call c s -> current call c' s).
Proof.
  intros I Hv Hc Ht. unfold GetState. destruct (eSize e <=? t)%nat eqn:Et; [lia|].
  destruct (current_dec call c t) as [(a&Ea&Eac)|Hn].
  - exists c. rewrite Ea. cbn [obind]. rewrite refresh_eq, Ea. replace (sCall a =? call) with true by lia. split_and!; try done.
    by exists a.
  - set (c1 := ReInitializeSearchStateInfo e fwd call true c t). exists c1.
    assert (current call c1 t) as Hcur. { exists (fresh_info e fwd call true t). simpl. by rewrite lookup_insert. }
    assert ((do c <- (match cSt c !! t with Some _ => Ok c | None => Ok c1 end); refresh e fwd call true c t) = Ok c1) as ->.
    { destruct (cSt c !! t) as [a|] eqn:Ea; cbn [obind].
      - rewrite refresh_eq, Ea. destruct (sCall a =? call) eqn:Ec; [|done]. exfalso. apply Hn. exists a. split; [done|lia].
      - rewrite refresh_eq. unfold c1. simpl. rewrite lookup_insert. simpl. by rewrite Z.eqb_refl. }
    split_and!; [done|by apply reinit_cinv|by apply reinit_hvalid|done|intros s; by apply reinit_lk| |].
    + intros s Hs. simpl. destruct (decide (s = t)) as [->|?]; [rewrite lookup_insert; eauto|by rewrite lookup_insert_ne].
    + intros s Hs. destruct (decide (s = t)) as [->|?]; [done|]. destruct Hs as (b&Eb&Ebc). exists b. simpl. by rewrite lookup_insert_ne.
Qed.

Lemma cinv_lower call iter start s t w ns c m z a' h' l' m' z' :
  cinv call iter start (Some (s, (t, w) :: ns)) c m z -> current call c t -> vl call c s < INFINITECOST -> (t, w) ∈ G s ->
  vl call c s + w < gl call c t ->
  sV a' = vl call c t -> sG a' = vl call c s + w -> sIter a' = il call c t -> sCall a' = call -> lB a' = Some s ->
  rep h' m' -> ord ckeyops 1 h' -> lrep l' z' -> (forall u k, m' !! u = Some k -> k1 k = 0) ->
  (forall u, is_Some (m' !! u) \/ inz z' u <-> u = t \/ is_Some (m !! u) \/ inz z u) ->
  (forall u, is_Some (m' !! u) -> ~ inz z' u) ->
  cinv call iter start (Some (s, ns)) (mkCore (cSt (set_st c t a')) h' l') m' z'.
Proof.
  intros I Ht Hvs Hin Hlt EV EG EI EC EB Hrep Hord Hlrep Hk1 Hun Hdisj.
  assert (forall u, lk call (mkCore (cSt (set_st c t a')) h' l') u = if decide (u = t) then a' else lk call c u) as HL.
  { intros u. by apply lk_set. }
  assert (forall u, vl call (mkCore (cSt (set_st c t a')) h' l') u = vl call c u) as HV.
  { intros u. rewrite HL. destruct (decide (u = t)) as [->|?]; done. }
  assert (forall u, gl call (mkCore (cSt (set_st c t a')) h' l') u <= gl call c u) as HG.
  { intros u. rewrite HL. destruct (decide (u = t)) as [->|?]; lia. }
  destruct Ht as (a0&Ea0&Eac0).
  remember (mkCore (cSt (set_st c t a')) h' l') as c2 eqn:Ec2.
  assert (cSt c2 = <[t := a']> (cSt c) /\ cOpen c2 = h' /\ cInc c2 = l') as (E1&E2&E3) by (by rewrite Ec2). clear Ec2.
  destruct I. split; rewrite ?E2, ?E3; try done.
  - intros u a Hu. rewrite E1 in Hu. destruct (decide (u = t)) as [->|Hut].
    + rewrite lookup_insert in Hu. injection Hu as <-. destruct (ci_dom0 t a0 Ea0). split; [done|]. lia.
    + rewrite lookup_insert_ne in Hu by done. eauto.
  - intros u. rewrite HV. destruct (ci_g0 u) as [? ?]. split; [|done]. rewrite HL. destruct (decide (u = t)) as [->|?]; [|done].
    rewrite EG. pose proof (ci_g0 s). destruct (ge_edge _ _ _ _ Hge s t w Hin) as [_ ?]. lia.
  - intros u. rewrite Hun, HV, HL. destruct (decide (u = t)) as [->|?].
    + rewrite EG. pose proof (ci_g0 t). split; [auto|lia].
    + rewrite ci_inc0. tauto.
  - intros u. rewrite HL. destruct (decide (u = t)) as [->|?]; [rewrite EI|]; apply ci_iter0.
  - rewrite HL. destruct (decide (start = t)) as [<-|?]; [|done]. pose proof (ci_g0 s).
    destruct (ge_edge _ _ _ _ Hge s start w Hin) as [_ ?]. lia.
  - intros u. rewrite HL. destruct (decide (u = t)) as [->|?].
    + intros _ _. exists s, w. rewrite EB, EG, HV. split_and!; try done; lia.
    + intros Hu Hus. destruct (ci_back0 u Hu Hus) as (p&w'&?&?&?&?). exists p, w'. by rewrite HV.
  - intros u x wx. rewrite HV. intros Hu Hx. destruct (ci_edge0 u x wx Hu Hx) as [Hle|(l&[= <- <-]&Hl)].
    + left. pose proof (HG x). lia.
    + apply elem_of_cons in Hl as [[= -> ->]|Hl].
      * left. rewrite HL, decide_True by done. lia.
      * right. eauto.
Qed.
Lemma cinv_skip call iter start s t w ns c m z : cinv call iter start (Some (s, (t, w) :: ns)) c m z ->
  gl call c t <= vl call c s + w -> cinv call iter start (Some (s, ns)) c m z.
Proof.
  intros I Hle. destruct I. split; try done. intros u x wx Hu Hx.
  destruct (ci_edge0 u x wx Hu Hx) as [?|(l&[= <- <-]&Hl)]; [auto|].
  apply elem_of_cons in Hl as [[= -> ->]|Hl]; [auto|]. right. eauto.
Qed.

Definition mono (call : Z) (c c' : core) : Prop :=
  (forall u, vl call c' u = vl call c u /\ il call c' u = il call c u /\ gl call c' u <= gl call c u) /\
  (forall u, is_Some (cSt c !! u) -> is_Some (cSt c' !! u)) /\ (forall u, current call c u -> current call c' u).
Lemma mono_refl call c : mono call c c.
Proof. split_and!; done. Qed.
Lemma mono_trans call c1 c2 c3 : mono call c1 c2 -> mono call c2 c3 -> mono call c1 c3.
Proof.
  intros (A1&A2&A3) (B1&B2&B3). split_and!; auto. intros u. specialize (A1 u). specialize (B1 u). lia.
Qed.
Lemma set_current call c t a u h l : sCall a = call -> current call c u -> current call (mkCore (cSt (set_st c t a)) h l) u.
Proof.
  intros Ha (b&Eb&Ec). unfold current. simpl. destruct (decide (u = t)) as [->|?].
  - rewrite lookup_insert. eauto.
  - rewrite lookup_insert_ne by done. eauto.
Qed.
Lemma set_present (c : core) t a u h l : is_Some (cSt c !! u) -> is_Some (cSt (mkCore (cSt (set_st c t a)) h l) !! u).
Proof. intros Hu. simpl. destruct (decide (u = t)) as [->|?]; [rewrite lookup_insert; eauto|by rewrite lookup_insert_ne]. Qed.
Lemma iinv_mono eps call iter start c c' m m' z z' : iinv eps call iter start c m z -> mono call c c' ->
  (forall s, is_Some (m' !! s) -> is_Some (m !! s) \/ il call c s <> iter) ->
  (forall s, inz z' s -> inz z s \/ il call c s = iter) -> iinv eps call iter start c' m' z'.
Proof.
  intros I (HM&_&_) Hm Hz. destruct I. split.
  - intros s Hs. destruct (HM s) as (_&->&_). destruct (Hm s Hs) as [?|?]; auto.
  - intros s Hs. destruct (HM s) as (_&->&_). destruct (Hz s Hs) as [?|?]; auto.
  - intros s. destruct (HM s) as (->&->&_). auto.
  - intros Hc s C. destruct (HM s) as (->&->&_). auto.
Qed.


Lemma heap_room (m : gmap nat ckey) n : (size m + n <= eSize e)%nat -> Z.of_nat (size m) <> HEAPSIZE - 1.
Proof. pose proof (ge_size _ _ _ _ Hge). unfold HEAPSIZE. lia. Qed.
Lemma heap_set h m t k : rep h m -> ord ckeyops 1 h -> Z.of_nat (size m) <> HEAPSIZE - 1 ->
  exists h', (if inheap h t then updateheap ckeyops h t k else insertheap ckeyops h t k) = Ok h' /\ rep h' (<[t := k]> m) /\ ord ckeyops 1 h'.
Proof.
  intros R O Hn. rewrite (inheap_spec h m t R). case_bool_decide as Hb.
  - destruct Hb as [k' Hk']. by apply (updateheap_spec ckeyops ckeylaws h m t k' k).
  - apply (insertheap_spec ckeyops ckeylaws h m t k R O); [|done]. destruct (m !! t); [|done]. exfalso. apply Hb. eauto.
Qed.
Lemma fkey_k1 eps g h : k1 (fkey eps g h) = 0.
Proof. done. Qed.

Lemma relax_spec eps call iter start s t w ns c m z :
  cinv call iter start (Some (s, (t, w) :: ns)) c m z -> iinv eps call iter start c m z -> kinv eps call c m -> hvalid c ->
  0 <= call -> vl call c s < INFINITECOST -> (t, w) ∈ G s ->
  exists c' m' z', relax e fwd eps iter call s c (t, w) = Ok c' /\
    cinv call iter start (Some (s, ns)) c' m' z' /\ iinv eps call iter start c' m' z' /\ kinv eps call c' m' /\ hvalid c' /\ mono call c c'.
Proof.
  intros I II K Hv Hc Hvs Hin. destruct (ge_edge _ _ _ _ Hge s t w Hin) as [Ht Hw].
  destruct (get_refresh call iter start _ c m z t I Hv Hc Ht) as (c1&Eg&I1&Hv1&Hcur&HL&Hp&Hpc).
  assert (mono call c c1) as M1 by (split_and!; [intros u; rewrite HL; lia|done|done]).
  assert (iinv eps call iter start c1 m z) as II1 by (eapply iinv_mono; [exact II|exact M1|auto|auto]).
  assert (kinv eps call c1 m) as K1 by (intros u k Hk; rewrite HL; by apply K).
  assert (vl call c1 s < INFINITECOST) as Hvs1 by by rewrite HL.
  unfold relax. cbn [fst snd]. destruct (GetState e fwd call true c t) as [c0| | |] eqn:E0; try discriminate. cbn [obind] in Eg |- *.
  rewrite Eg. cbn [obind]. rewrite (rdst_current call c1 t Hcur), (rdst_finite call c1 s) by auto. cbn [obind].
  pose proof (ci_g _ _ _ _ _ _ _ I1) as Hg.
  assert (u32 (vl call c1 s + w) = vl call c1 s + w) as Eu.
  { unfold u32. apply Z.mod_small. pose proof (Hg s). unfold INFINITECOST in *. lia. }
  rewrite Eu. destruct (sG (lk call c1 t) >? vl call c1 s + w) eqn:Egt.
  2:{ exists c1, m, z. split_and!; try done. apply (cinv_skip _ _ _ _ _ _ _ _ _ _ I1). lia. }
  set (a' := if fwd then _ else _).
  assert (sV a' = vl call c1 t /\ sG a' = vl call c1 s + w /\ sIter a' = il call c1 t /\ sCall a' = call /\ lB a' = Some s /\ sH a' = H t)
    as (EV&EG&EI&EC&EB&EH).
  { unfold a', lB. pose proof (lk_H call c1 t Hv1). pose proof (lk_call call c1 t). destruct fwd; simpl; split_and!; done. }
  clearbody a'. pose proof (cinv_size _ _ _ _ _ _ _ I1) as Hsz. pose proof (ge_size _ _ _ _ Hge) as HS.
  assert (forall h' l', hvalid (mkCore (cSt (set_st c1 t a')) h' l')) as Hv2.
  { intros h' l' u b Hu. cbn in Hu. destruct (decide (u = t)) as [->|?].
    - rewrite lookup_insert in Hu. by injection Hu as <-.
    - rewrite lookup_insert_ne in Hu by done. by apply Hv1. }
  assert (forall h' l', mono call c1 (mkCore (cSt (set_st c1 t a')) h' l')) as M3.
  { intros h' l'. split_and!.
    - intros u. assert (lk call (mkCore (cSt (set_st c1 t a')) h' l') u = if decide (u = t) then a' else lk call c1 u) as -> by by apply lk_set.
      destruct (decide (u = t)) as [->|?]; split_and!; try done; lia.
    - intros u. apply set_present.
    - intros u. by apply set_current. }
  assert (forall h' l', mono call c (mkCore (cSt (set_st c1 t a')) h' l')) as M2.
  { intros h' l'. by apply (mono_trans _ _ _ _ M1). }
  assert (forall h' l' u, gl call (mkCore (cSt (set_st c1 t a')) h' l') u = if decide (u = t) then vl call c1 s + w else gl call c1 u) as HG2.
  { intros h' l' u. assert (lk call (mkCore (cSt (set_st c1 t a')) h' l') u = if decide (u = t) then a' else lk call c1 u) as -> by by apply lk_set.
    by destruct (decide (u = t)). }
  destruct (sIter (lk call c1 t) =? iter) eqn:Eit; cbn [negb].
  - (* closed: INCONS *)
    assert (m !! t = None) as Hmt.
    { destruct (m !! t) eqn:Em; [|done]. exfalso. apply (ii_open _ _ _ _ _ _ _ II1 t); [eauto|lia]. }
    assert (kinv eps call (mkCore (cSt (set_st c1 t a')) (cOpen c1) (cInc c1)) m) as K2.
    { intros u k Hk. rewrite HG2. destruct (decide (u = t)) as [->|?]; [congruence|by apply K1]. }
    destruct (list_in (cInc (set_st c1 t a')) t) eqn:Eli; cbn in Eli.
    + apply (list_in_spec _ _ _ (ci_lrep _ _ _ _ _ _ _ I1)) in Eli.
      eexists _, m, z. split; [reflexivity|].
      assert (set_st c1 t a' = mkCore (cSt (set_st c1 t a')) (cOpen c1) (cInc c1)) as -> by done.
      split_and!; [|eapply iinv_mono; [exact II|apply M2|auto|auto]|done|apply Hv2|apply M2].
      apply (cinv_lower call iter start s t w ns c1 m z a'); try done; try lia; try apply I1.
      intros u. split; [auto|]. intros [->|?]; auto.
    + assert (~ inz z t) as Hz. { intros Hz. apply (list_in_spec _ _ _ (ci_lrep _ _ _ _ _ _ _ I1)) in Hz. congruence. }
      destruct (list_insert_spec (cInc c1) z t (ci_lrep _ _ _ _ _ _ _ I1) Hz) as (l'&ad&El&Hl').
      { unfold LISTSIZE. pose proof (cinv_room _ _ _ _ _ _ _ t I1 Ht Hmt Hz). lia. }
      cbn [cInc set_st]. rewrite El. cbn [lift obind].
      eexists _, m, _. split; [reflexivity|].
      split_and!; [|eapply iinv_mono; [exact II1|..]|done|apply Hv2|apply M2].
      * apply (cinv_lower call iter start s t w ns c1 m z a'); try done; try lia; try apply I1.
        -- intros u. rewrite fmap_cons, elem_of_cons. cbn. tauto.
        -- intros u Hu. rewrite fmap_cons, elem_of_cons. cbn. intros [->|Hz']; [destruct Hu; congruence|].
           by apply (ci_disj _ _ _ _ _ _ _ I1 u).
      * apply (M3 (cOpen c1) l').
      * auto.
      * intros u. rewrite fmap_cons, elem_of_cons. cbn. intros [->|?]; [right; lia|auto].
  - assert (~ inz z t) as Hz by (intros Hz; apply (ii_inc _ _ _ _ _ _ _ II1) in Hz; lia).
    cbn [cOpen set_st].
    destruct (heap_set (cOpen c1) m t (fkey eps (vl call c1 s + w) (sH (lk call c1 t)))) as (h'&Eh&Rh&Oh); [apply I1|apply I1|by eapply heap_room|].
    rewrite Eh. cbn [lift obind]. eexists _, _, z. split; [reflexivity|].
    split_and!; [|eapply iinv_mono; [exact II1|..]| |apply Hv2|apply M2].
    + apply (cinv_lower call iter start s t w ns c1 m z a' h' (cInc c1)); try done; try lia; try apply I1.
      * intros u k. destruct (decide (u = t)) as [->|?].
        -- rewrite lookup_insert. by intros [= <-].
        -- rewrite lookup_insert_ne by done. apply I1.
      * intros u. destruct (decide (u = t)) as [->|?].
        -- rewrite lookup_insert. naive_solver.
        -- rewrite lookup_insert_ne by done. tauto.
      * intros u. destruct (decide (u = t)) as [->|?].
        -- done.
        -- rewrite lookup_insert_ne by done. apply I1.
    + apply (M3 h' (cInc c1)).
    + intros u. destruct (decide (u = t)) as [->|?].
      * intros _. right. lia.
      * rewrite lookup_insert_ne by done. auto.
    + auto.
    + intros u k. cbn [cSt]. change (cSt (set_st c1 t a')) with (cSt (mkCore (cSt (set_st c1 t a')) h' (cInc c1))).
      rewrite HG2. destruct (decide (u = t)) as [->|?].
      * rewrite lookup_insert. intros [= <-]. by rewrite (lk_H call c1 t Hv1).
      * rewrite lookup_insert_ne by done. apply K1.
Qed.

Lemma relax_all_spec eps call iter start s ns : forall c m z,
  cinv call iter start (Some (s, ns)) c m z -> iinv eps call iter start c m z -> kinv eps call c m -> hvalid c ->
  0 <= call -> vl call c s < INFINITECOST -> (forall tw, tw ∈ ns -> tw ∈ G s) ->
  exists c' m' z', relax_all e fwd eps iter call s ns c = Ok c' /\
    cinv call iter start None c' m' z' /\ iinv eps call iter start c' m' z' /\ kinv eps call c' m' /\ hvalid c' /\ mono call c c'.
Proof.
  induction ns as [|[t w] ns IH]; intros c m z I II K Hv Hc Hs Hns; cbn [relax_all].
  - exists c, m, z. split_and!; try done. destruct I. split; try done. intros u x wx Hu Hx.
    destruct (ci_edge0 u x wx Hu Hx) as [?|(l&[= <- <-]&Hl)]; [auto|]. by apply elem_of_nil in Hl.
  - destruct (relax_spec eps call iter start s t w ns c m z I II K Hv Hc Hs) as (c1&m1&z1&E1&I1&II1&K1&Hv1&M1).
    { apply Hns. by left. }
    rewrite E1. cbn [obind].
    destruct (IH c1 m1 z1 I1 II1 K1 Hv1 Hc) as (c2&m2&z2&E2&I2&II2&K2&Hv2&M2).
    { destruct M1 as (M1&_&_). destruct (M1 s) as (->&_). done. }
    { intros tw Htw. apply Hns. by right. }
    exists c2, m2, z2. split_and!; try done. by eapply mono_trans.
Qed.

(** The key lemma of ARA*: every route is either already accounted for or passes through OPEN. *)
Notation hh eps s := (toint (eps * inject_Z (H s))).
Lemma hh_range eps s : (0 <= eps <= E)%Q -> 0 <= hh eps s < 2147483648.
Proof. intros He. by apply (toint_nonneg E eps He); [apply (ge_heur _ _ _ _ Hge)|apply (ge_heurE _ _ _ _ Hge)]. Qed.
Lemma kinv_k0 eps call iter start pend c m z s k : (0 <= eps <= E)%Q -> cinv call iter start pend c m z -> kinv eps call c m ->
  m !! s = Some k -> k = mkKey (gl call c s + hh eps s) 0.
Proof.
  intros He I K Hk. rewrite (K s k Hk). apply fkey_eq; [|by apply hh_range]. pose proof (ci_g _ _ _ _ _ _ _ I s). lia.
Qed.
Lemma key_lemma eps call iter start c m z : (0 <= eps <= E)%Q -> con = true ->
  (forall s t w, (t, w) ∈ G s -> H s <= w + H t) ->
  cinv call iter start None c m z -> iinv eps call iter start c m z -> kinv eps call c m ->
  forall s C, sr (inflate eps) start s C ->
  gl call c s <= C \/ exists u k, m !! u = Some k /\ k0 k <= C + hh eps s.
Proof.
  intros He Hcon Hcons I II K s C R. induction R as [|s t w C R IH Hin].
  - left. by rewrite (ci_start _ _ _ _ _ _ _ I).
  - pose proof (toint_step E eps He (H s) (H t) w) as Hst.
    specialize (Hst (ge_heur _ _ _ _ Hge s) (ge_heur _ _ _ _ Hge t) (Hcons s t w Hin) (ge_heurE _ _ _ _ Hge s) (ge_heurE _ _ _ _ Hge t)).
    destruct IH as [Hle|(u&k&Hu&Hk)]; [|right; exists u, k; split; [done|lia]].
    destruct (m !! s) as [k|] eqn:Em.
    { right. exists s, k. split; [done|]. rewrite (kinv_k0 eps call iter start None c m z s k He I K Em). cbn. lia. }
    left. pose proof (ci_g _ _ _ _ _ _ _ I) as Hg. pose proof (inflate_ge eps w) as Hw.
    destruct (decide (il call c s = iter)) as [Hcl|Hncl].
    + pose proof (ii_bound _ _ _ _ _ _ _ II Hcon s C Hcl R) as Hb.
      pose proof (ii_closed _ _ _ _ _ _ _ II s Hcl) as Hfin.
      destruct (ci_edge _ _ _ _ _ _ _ I s t w Hfin Hin) as [Hed|(l&[=]&_)]. lia.
    + assert (~ (gl call c s < vl call c s)) as Heq.
      { rewrite (ci_inc _ _ _ _ _ _ _ I s), Em. intros [[? [=]]|Hz]. by apply (ii_inc _ _ _ _ _ _ _ II) in Hz. }
      destruct (decide (vl call c s < INFINITECOST)) as [Hfin|Hinf].
      * destruct (ci_edge _ _ _ _ _ _ _ I s t w Hfin Hin) as [Hed|(l&[=]&_)]. pose proof (Hg s). lia.
      * pose proof (Hg s). pose proof (Hg t). destruct (ge_edge _ _ _ _ Hge s t w Hin) as [_ ?]. lia.
Qed.

(** Expanding the minimum of OPEN. *)
Definition unclosed (call iter : Z) (c : core) : nat :=
  length (filter (fun s => il call c s <> iter) (seq 0 (eSize e))).
Lemma filter_len_mono (P Q : nat -> Prop) `{forall x, Decision (P x)} `{forall x, Decision (Q x)} (l : list nat) :
  (forall x, P x -> Q x) -> (length (filter P l) <= length (filter Q l))%nat.
Proof.
  intros HPQ. induction l as [|x l IH]; [done|]. rewrite !filter_cons.
  destruct (decide (P x)) as [Hp|Hp], (decide (Q x)) as [Hq|Hq]; simpl; try lia. exfalso. auto.
Qed.
Lemma filter_len_strict (P Q : nat -> Prop) `{forall x, Decision (P x)} `{forall x, Decision (Q x)} (l : list nat) y :
  (forall x, P x -> Q x) -> y ∈ l -> Q y -> ~ P y -> (length (filter P l) < length (filter Q l))%nat.
Proof.
  intros HPQ Hy Hq Hp. induction l as [|x l IH]; [by apply elem_of_nil in Hy|]. rewrite !filter_cons.
  apply elem_of_cons in Hy as [<-|Hy].
  - rewrite (decide_False _ _ Hp), (decide_True _ _ Hq). simpl. pose proof (filter_len_mono P Q l HPQ). lia.
  - specialize (IH Hy). destruct (decide (P x)) as [Hpx|], (decide (Q x)) as [|Hqx]; simpl; try lia. exfalso. auto.
Qed.

Definition gmono (call : Z) (c c' : core) : Prop :=
  (forall u, gl call c' u <= gl call c u) /\ (forall u, is_Some (cSt c !! u) -> is_Some (cSt c' !! u)) /\
  (forall u, current call c u -> current call c' u).
Lemma gmono_trans call c1 c2 c3 : gmono call c1 c2 -> gmono call c2 c3 -> gmono call c1 c3.
Proof. intros (A1&A2&A3) (B1&B2&B3). split_and!; auto. intros u. specialize (A1 u). specialize (B1 u). lia. Qed.
Lemma mono_gmono call c c' : mono call c c' -> gmono call c c'.
Proof. intros (A1&A2&A3). split_and!; auto. intros u. by destruct (A1 u) as (_&_&?). Qed.

Definition consistent : Prop := forall s t w, (t, w) ∈ G s -> H s <= w + H t.

Lemma expand_spec eps call iter start c m z s k h' :
  (0 <= eps <= E)%Q -> 0 <= iter -> (con = true -> consistent) -> nbrs e fwd s = G s ->
  cinv call iter start None c m z -> iinv eps call iter start c m z -> kinv eps call c m -> hvalid c -> 0 <= call ->
  m !! s = Some k -> (forall s' k', m !! s' = Some k' -> k0 k <= k0 k') -> k0 k < INFINITECOST ->
  rep h' (delete s m) -> ord ckeyops 1 h' ->
  exists a c' m' z', rdst c s = Ok a /\
    relax_all e fwd eps iter call s (nbrs e fwd s)
      (set_st (mkCore (cSt c) h' (cInc c)) s (mkA (sG a) (sG a) iter (sCall a) (sPred a) (sNext a) (sCostNext a) (sH a))) = Ok c' /\
    cinv call iter start None c' m' z' /\ iinv eps call iter start c' m' z' /\ kinv eps call c' m' /\ hvalid c' /\
    gmono call c c' /\ (unclosed call iter c' < unclosed call iter c)%nat /\
    il call c s <> iter /\ il call c' s = iter /\ (s < eSize e)%nat /\ (forall u, il call c u = iter -> il call c' u = iter).
Proof.
  intros He Hit Hcons Hnb I II K Hv Hc Hk Hmin Hkinf Rh Oh.
  pose proof (kinv_k0 eps call iter start None c m z s k He I K Hk) as Ek.
  pose proof (hh_range eps s He) as Hr. pose proof (ci_g _ _ _ _ _ _ _ I) as Hg.
  assert (gl call c s < INFINITECOST) as Hfin by (rewrite Ek in Hkinf; cbn in Hkinf; lia).
  assert (s ∉ z.*2) as Hz by (apply (ci_disj _ _ _ _ _ _ _ I); eauto).
  assert (il call c s <> iter) as Hncl by (apply (ii_open _ _ _ _ _ _ _ II); eauto).
  destruct (lk_finite call c s) as (a&Ea&Eac&Ela); [auto|].
  set (a' := mkA (sG a) (sG a) iter (sCall a) (sPred a) (sNext a) (sCostNext a) (sH a)).
  set (c2 := set_st (mkCore (cSt c) h' (cInc c)) s a').
  assert (forall u, lk call c2 u = if decide (u = s) then a' else lk call c u) as HL.
  { intros u. change (lk call c u) with (lk call (mkCore (cSt c) h' (cInc c)) u). by apply lk_set. }
  assert (forall u, gl call c2 u = gl call c u) as HG. { intros u. rewrite HL. destruct (decide (u = s)) as [->|?]; [by rewrite Ela|done]. }
  assert (forall u, lB (lk call c2 u) = lB (lk call c u)) as HB. { intros u. rewrite HL. destruct (decide (u = s)) as [->|?]; [by rewrite Ela|done]. }
  assert (forall u, vl call c2 u <= vl call c u) as HV.
  { intros u. rewrite HL. destruct (decide (u = s)) as [->|?]; [|done]. pose proof (Hg s). rewrite Ela in *. cbn. lia. }
  assert (cinv call iter start (Some (s, G s)) c2 (delete s m) z) as I2.
  { split; try done; try (intros; rewrite ?HG, ?HB in *; by apply I).
    - intros u k'. destruct (decide (u = s)) as [->|?]; [by rewrite lookup_delete|rewrite lookup_delete_ne by done; apply I].
    - intros u b Hu. unfold c2 in Hu. cbn in Hu. destruct (decide (u = s)) as [->|?].
      + rewrite lookup_insert in Hu. injection Hu as <-. by apply (ci_dom _ _ _ _ _ _ _ I s a).
      + rewrite lookup_insert_ne in Hu by done. by apply (ci_dom _ _ _ _ _ _ _ I u b).
    - intros u. rewrite HG. rewrite HL. pose proof (Hg u). destruct (decide (u = s)) as [->|?]; [|done]. rewrite Ela in *. cbn. lia.
    - intros u. rewrite HG, HL. destruct (decide (u = s)) as [->|?].
      + rewrite lookup_delete, Ela. cbn. split; [lia|]. intros [[? [=]]|?]. done.
      + rewrite lookup_delete_ne by done. apply I.
    - intros u. destruct (decide (u = s)) as [->|?]; [by rewrite lookup_delete; intros [? [=]]|rewrite lookup_delete_ne by done; apply I].
    - intros u. rewrite HL. destruct (decide (u = s)) as [->|?]; [cbn; lia|apply I].
    - intros u. rewrite HG, HB. intros Hu Hus. destruct (ci_back _ _ _ _ _ _ _ I u Hu Hus) as (p&w&?&?&?&?). exists p, w.
      pose proof (HV p). split_and!; try done; lia.
    - intros u t w. rewrite HG. rewrite HL. destruct (decide (u = s)) as [->|?]; [intros; right; eauto|].
      intros Hu Ht. destruct (ci_edge _ _ _ _ _ _ _ I u t w Hu Ht) as [?|(l&[=]&_)]. auto. }
  assert (iinv eps call iter start c2 (delete s m) z) as II2.
  { split.
    - intros u Hu. rewrite HL. destruct (decide (u = s)) as [->|?]; [by rewrite lookup_delete in Hu; destruct Hu|].
      rewrite lookup_delete_ne in Hu by done. by apply II.
    - intros u Hu. rewrite HL. destruct (decide (u = s)) as [->|?]; [done|by apply II].
    - intros u. rewrite HL. destruct (decide (u = s)) as [->|?]; [|apply II]. cbn. rewrite <- Ela. lia.
    - intros Hcon u C. rewrite HL. destruct (decide (u = s)) as [->|?]; [|by apply II]. cbn. intros _ R.
      destruct (key_lemma eps call iter start c m z He Hcon (Hcons Hcon) I II K s C R) as [?|(u&k'&Hu&Hk')]; [by rewrite <- Ela|].
      pose proof (Hmin u k' Hu). rewrite Ek in *. cbn in *. rewrite <- Ela. lia. }
  assert (kinv eps call c2 (delete s m)) as K2.
  { intros u k'. rewrite HG. destruct (decide (u = s)) as [->|?]; [by rewrite lookup_delete|rewrite lookup_delete_ne by done; apply K]. }
  assert (hvalid c2) as Hv2.
  { intros u b Hu. unfold c2 in Hu. cbn in Hu. destruct (decide (u = s)) as [->|?].
    - rewrite lookup_insert in Hu. injection Hu as <-. by apply (Hv s a).
    - rewrite lookup_insert_ne in Hu by done. by apply Hv. }
  destruct (relax_all_spec eps call iter start s (nbrs e fwd s) c2 (delete s m) z) as (c3&m3&z3&E3&I3&II3&K3&Hv3&M3); try done.
  { by rewrite Hnb. }
  { rewrite HL, decide_True by done. cbn. by rewrite <- Ela. }
  { intros tw. by rewrite Hnb. }
  exists a, c3, m3, z3. split_and!; try done.
  - unfold rdst. by rewrite Ea.
  - apply (gmono_trans _ _ c2); [|by apply mono_gmono]. split_and!.
    + intros u. rewrite HG. lia.
    + intros u. apply (set_present (mkCore (cSt c) h' (cInc c)) s a' u h' (cInc c)).
    + intros u. by apply (set_current call (mkCore (cSt c) h' (cInc c)) s a' u h' (cInc c)).
  - assert (unclosed call iter c3 = unclosed call iter c2) as ->.
    { unfold unclosed. f_equal. apply list_filter_iff. intros u. destruct M3 as (M3&_). destruct (M3 u) as (_&->&_). done. }
    unfold unclosed. eapply (filter_len_strict _ _ _ s).
    + intros u. rewrite HL. destruct (decide (u = s)) as [->|?]; [cbn; lia|done].
    + apply elem_of_seq. pose proof (proj1 (ci_dom _ _ _ _ _ _ _ I s a Ea)). lia.
    + done.
    + rewrite HL, decide_True by done. cbn. lia.
  - destruct M3 as (M3&_). destruct (M3 s) as (_&->&_). by rewrite HL, decide_True by done.
  - by apply (ci_dom _ _ _ _ _ _ _ I s a).
  - intros u Hu. destruct M3 as (M3&_). destruct (M3 u) as (_&->&_). rewrite HL. by destruct (decide (u = s)).
Qed.
End search.
