(** Path reconstruction. *)
From Coq Require Import ZifyBool ZifyNat QArith.
From Verif Require Import Base KeyModel HeapModel HeapProofs ListModel ListProofs AngleModel AraModel AraSpec AraProofs.
Local Open Scope Z_scope.

Lemma route_snoc W edge l a b z c C : route W edge l a b C -> edge b z c -> route W edge (l ++ [z]) a z (C + W c).
Proof.
  induction 1 as [a|a b l z' c' C' He HR IH]; intros Hz; cbn [app].
  - replace (0 + W c) with (W c + 0) by lia. apply route_cons; [done|apply route_one].
  - replace (W c' + C' + W c) with (W c' + (C' + W c)) by lia. apply route_cons; [done|]. by apply IH.
Qed.
Lemma route_impl W (e1 e2 : nat -> nat -> Z -> Prop) l a b C : (forall u v c, e1 u v c -> e2 u v c) -> route W e1 l a b C -> route W e2 l a b C.
Proof. intros Hi. induction 1; [apply route_one|apply route_cons; auto]. Qed.
Lemma route_head W e l a b C : route W e l a b C -> exists l', l = a :: l'.
Proof. destruct 1; eauto. Qed.

(** Same search data up to bestnextstate. *)
Definition simst (a a' : astate) : Prop :=
  sV a' = sV a /\ sG a' = sG a /\ sIter a' = sIter a /\ sCall a' = sCall a /\ sPred a' = sPred a /\ sH a' = sH a.
Definition sim (c c' : core) : Prop :=
  cOpen c' = cOpen c /\ cInc c' = cInc c /\
  (forall s a, cSt c !! s = Some a -> exists a', cSt c' !! s = Some a' /\ simst a a') /\
  (forall s, cSt c !! s = None -> cSt c' !! s = None).
Lemma sim_refl c : sim c c.
Proof. split_and!; try done. intros s a Ha. exists a. by split. Qed.
Lemma simst_trans a b c : simst a b -> simst b c -> simst a c.
Proof. intros (?&?&?&?&?&?) (?&?&?&?&?&?). split_and!; congruence. Qed.
Lemma sim_trans c1 c2 c3 : sim c1 c2 -> sim c2 c3 -> sim c1 c3.
Proof.
  intros (A1&A2&A3&A4) (B1&B2&B3&B4). split_and!; [congruence..| |auto].
  intros s a Ha. destruct (A3 s a Ha) as (b&Hb&?). destruct (B3 s b Hb) as (d&Hd&?). exists d. split; [done|by eapply simst_trans].
Qed.
Lemma sim_set c p b n : cSt c !! p = Some b ->
  sim c (set_st c p (mkA (sV b) (sG b) (sIter b) (sCall b) (sPred b) n (sCostNext b) (sH b))).
Proof.
  intros Hb. split_and!; try done; cbn; intros s.
  - intros a Ha. destruct (decide (s = p)) as [->|?].
    + rewrite lookup_insert. eexists. split; [done|]. simplify_eq. done.
    + rewrite lookup_insert_ne by done. exists a. done.
  - intros Hn. rewrite lookup_insert_ne; [done|]. intros ->. congruence.
Qed.
Lemma sim_lk e fwd call c c' s : sim c c' -> simst (lk e fwd call c s) (lk e fwd call c' s).
Proof.
  intros (_&_&S3&S4). unfold lk. destruct (cSt c !! s) as [a|] eqn:Ea.
  - destruct (S3 s a Ea) as (a'&->&Hs). pose proof Hs as (_&_&_&->&_). destruct (sCall a =? call); [done|]. done.
  - by rewrite (S4 s Ea).
Qed.

(** Whatever the search data, a successful reconstruction only changes bestnextstate. *)
Lemma reconstruct_sim fuel start : forall s c c', reconstruct fuel start s c = Ok c' -> sim c c'.
Proof.
  induction fuel as [|fuel IH]; intros s c c'; cbn [reconstruct]; [done|].
  destruct (s =? start)%nat; [intros [= <-]; apply sim_refl|].
  intros HE. apply obind_ok in HE as (a&Ea&HE). destruct (sG a =? INFINITECOST); [injection HE as <-; apply sim_refl|].
  destruct (sPred a) as [pr|]; [|done]. apply obind_ok in HE as (b&Eb&HE). destruct (sV b >=? sG a); [done|].
  unfold rdst in Eb. destruct (cSt c !! pr) as [b'|] eqn:Eb'; [|done]. injection Eb as ->.
  eapply sim_trans; [by apply sim_set|by eapply IH].
Qed.

Section path.
Context (G : nat -> list (nat * Z)) (e : aenv) (fwd : bool) (call : Z) (start goal : nat).
Notation lk := (lk e fwd call).
Notation gl c s := (sG (lk c s)).
Notation vl c s := (sV (lk c s)).
Record bk (c : core) : Prop := {
  bk_dom : forall s a, cSt c !! s = Some a -> (s < eSize e)%nat;
  bk_g : forall s, gl c s <= vl c s /\ vl c s <= INFINITECOST;
  bk_back : forall s, gl c s < INFINITECOST -> s <> start -> exists p w, lB fwd (lk c s) = Some p /\ (s, w) ∈ G p /\
    vl c p < INFINITECOST /\ vl c p + w <= gl c s
}.
(** How many states have a smaller g. *)
Definition below (c : core) (s : nat) : nat := length (filter (fun u => gl c u < gl c s) (seq 0 (eSize e))).
Lemma below_lt c p s : bk c -> gl c p < gl c s -> gl c p < INFINITECOST -> (below c p < below c s)%nat.
Proof.
  intros B Hlt Hfin. unfold below. destruct (lk_finite e fwd call c p) as (a&Ea&_); [auto|].
  apply (filter_len_strict _ _ _ p).
  - intros x Hx. lia.
  - apply elem_of_seq. pose proof (bk_dom c B p a Ea). lia.
  - done.
  - lia.
Qed.
Lemma below_le c s : (below c s <= eSize e)%nat.
Proof. unfold below. pose proof (filter_length (fun u => gl c u < gl c s) (seq 0 (eSize e))) as Hl. rewrite seq_length in Hl. exact Hl. Qed.

(** One link of bestnextstate pointers away from a state that is not the target. *)
Definition link (target : nat) (c : core) (R : nat -> nat -> Z -> Prop) (u v : nat) (w : Z) : Prop :=
  R u v w /\ u <> target /\ exists r, cSt c !! u = Some r /\ sNext r = Some v /\ sG r <> INFINITECOST.
Lemma follow_route target c R l a C : route (fun x => x) (link target c R) l a target C ->
  forall fuel acc, (length l <= fuel)%nat -> follow fuel target a c acc = Ok (acc ++ tail l).
Proof.
  remember target as z eqn:Ez. rewrite Ez at 1.
  induction 1 as [a|a b l z w C (HR&Hne&r&Er&En&Eg) Hr IH]; intros fuel acc Hf; (destruct fuel as [|fuel]; [cbn in Hf; lia|]); cbn [follow].
  - subst. rewrite Nat.eqb_refl. by rewrite app_nil_r.
  - subst. destruct (a =? target)%nat eqn:Eq; [apply Nat.eqb_eq in Eq; done|].
    unfold rdst. rewrite Er. cbn [obind]. rewrite En. destruct (sG r =? INFINITECOST) eqn:E0; [lia|].
    rewrite IH; [|done|cbn in *; lia]. rewrite <- app_assoc. by destruct (route_head _ _ _ _ _ _ Hr) as (l'&[= ->]).
Qed.
End path.

Section bwd.
Context (G : nat -> list (nat * Z)) (e : aenv) (call : Z) (start goal : nat).
Notation lk := (lk e false call).
Notation gl c s := (sG (lk c s)).
Notation vl c s := (sV (lk c s)).
Context (Hpos : forall s t w, (t, w) ∈ G s -> 0 < w).
(** Backward search: the bestnextstate pointers lead from any reached state to the search start. *)
Lemma bwd_route c : bk G e false call start c -> forall n s, (below e false call c s < n)%nat -> gl c s < INFINITECOST -> gl c s <= gl c goal ->
  exists l C, route (fun x => x) (link start c (fun u v w => (u, w) ∈ G v /\ v <> goal)) l s start C /\ C <= gl c s - gl c start /\ (length l <= n)%nat.
Proof.
  intros B. induction n as [|n IH]; intros s Hn Hfin Hgo; [lia|].
  destruct (decide (s = start)) as [->|Hs].
  - exists [start], 0. split_and!; [apply route_one|lia|cbn; lia].
  - destruct (bk_back _ _ _ _ _ _ B s Hfin Hs) as (p&w&Ep&Hin&Hvp&Hle).
    pose proof (Hpos p s w Hin). pose proof (bk_g _ _ _ _ _ _ B p).
    assert (gl c p < gl c s) as Hlt by lia.
    destruct (IH p) as (l&C&HR&HC&Hl); [pose proof (below_lt G e false call start c p s B Hlt ltac:(lia)); lia|lia|lia|].
    destruct (route_head _ _ _ _ _ _ HR) as (l'&->).
    exists (s :: p :: l'), (w + C). split_and!; [|lia|cbn in *; lia].
    apply (route_cons (fun x => x)); [|done]. split; [split; [done|intros ->; lia]|]. split; [done|].
    destruct (lk_finite e false call c s) as (a&Ea&_&El); [auto|]. exists a. rewrite El in *. split_and!; [done|done|]. lia.
Qed.
End bwd.

Section fwd.
Context (G : nat -> list (nat * Z)) (e : aenv) (call : Z) (start goal : nat).
Notation lk := (lk e true call).
Notation gl c s := (sG (lk c s)).
Notation vl c s := (sV (lk c s)).
Context (Hpos : forall s t w, (t, w) ∈ G s -> 0 < w).
Lemma bk_sim c c' : sim c c' -> bk G e true call start c -> bk G e true call start c'.
Proof.
  intros S B. pose proof (fun s => sim_lk e true call c c' s S) as HL. destruct B. split.
  - intros s a' Ha'. destruct (cSt c !! s) as [a|] eqn:Ea; [eauto|]. destruct S as (_&_&_&S4). rewrite (S4 s Ea) in Ha'. done.
  - intros s. destruct (HL s) as (->&->&_). auto.
  - intros s. destruct (HL s) as (_&->&_&_&Ep&_). intros Hf Hs. destruct (bk_back0 s Hf Hs) as (p&w&?&?&?&?). exists p, w.
    destruct (HL p) as (->&_). cbn in *. rewrite Ep. done.
Qed.
Lemma fwd_route : forall n s c, bk G e true call start c -> (below e true call c s < n)%nat -> gl c s < INFINITECOST -> gl c s <= gl c goal ->
  exists c' l C, reconstruct n start s c = Ok c' /\ sim c c' /\
    (forall u, gl c s <= gl c u -> cSt c' !! u = cSt c !! u) /\
    route (fun x => x) (link goal c' (fun u v w => (v, w) ∈ G u)) l start s C /\ C <= gl c s - gl c start /\ (length l <= n)%nat.
Proof.
  induction n as [|n IH]; intros s c B Hn Hfin Hgo; [lia|]. cbn [reconstruct].
  destruct (s =? start)%nat eqn:Es.
  - apply Nat.eqb_eq in Es as ->. exists c, [start], 0. split_and!; try done; [apply sim_refl|apply route_one|lia|cbn; lia].
  - apply Nat.eqb_neq in Es. rewrite (rdst_finite e true call c s) by auto. cbn [obind].
    destruct (gl c s =? INFINITECOST) eqn:Einf; [lia|].
    destruct (bk_back _ _ _ _ _ _ B s Hfin Es) as (p&w&Ep&Hin&Hvp&Hle). cbn in Ep. rewrite Ep.
    pose proof (Hpos p s w Hin). pose proof (bk_g _ _ _ _ _ _ B p).
    destruct (lk_finite e true call c p) as (b&Eb&Ebc&Elb); [auto|].
    rewrite (rdst_finite e true call c p) by auto. cbn [obind]. destruct (vl c p >=? gl c s) eqn:Ege; [lia|].
    rewrite Elb. set (c1 := set_st c p _).
    assert (sim c c1) as S1 by by apply sim_set.
    pose proof (fun s => sim_lk e true call c c1 s S1) as HL.
    assert (forall u, gl c1 u = gl c u) as HG by (intros u; by destruct (HL u) as (_&->&_)).
    assert (gl c p < gl c s) as Hlt by lia.
    destruct (IH p c1) as (c'&l&C&E'&S'&Hfr&HR&HC&Hl).
    { by eapply bk_sim. }
    { assert (below e true call c1 p = below e true call c p) as ->.
      { unfold below. f_equal. apply list_filter_iff. intros u. by rewrite !HG. }
      pose proof (below_lt G e true call start c p s B Hlt ltac:(lia)). lia. }
    { rewrite HG. lia. } { rewrite !HG. lia. }
    exists c', (l ++ [s]), (C + w). split_and!.
    + done.
    + by eapply sim_trans.
    + intros u Hu. rewrite Hfr by (rewrite !HG; lia). unfold c1. cbn. rewrite lookup_insert_ne; [done|]. intros ->. lia.
    + apply (route_snoc (fun x => x) _ _ _ p); [done|]. split; [done|]. split; [intros ->; lia|].
      rewrite Hfr by lia. unfold c1. cbn. rewrite lookup_insert. eexists. split; [reflexivity|]. cbn. split; [done|].
      rewrite <- Elb. lia.
    + rewrite !HG in HC. lia.
    + rewrite app_length. cbn. lia.
Qed.
End fwd.
