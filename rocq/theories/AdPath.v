(** Path extraction of AD*. *)
From Coq Require Import ZifyBool ZifyNat QArith.
From Verif Require Import Base KeyModel HeapModel HeapProofs ListModel ListProofs AngleModel AraModel AraSpec AraProofs AraPath AdModel AdSpec AdAbs AdProofs.
Local Open Scope Z_scope.

Notation idw := (fun x : Z => x).
Section chain.
Context (G : nat -> list (nat * Z)) (fwd : bool) (start : nat).
(** One step back along the best predecessors; [B] bounds the g-values reached. *)
Definition lnk (B : Z) (L : nat -> astate) (u v : nat) (w : Z) : Prop :=
  u <> start /\ get_bp fwd (L u) = Some v /\ (u, w) ∈ G v /\ sV (L v) + w <= sG (L u) /\ 0 < w /\ sG (L u) <= sV (L u) /\ sG (L u) < INFINITECOST /\
  sG (L v) <= sV (L v) /\ sG (L v) < B /\ sG (L v) < INFINITECOST.
Lemma safe_chain B L x : vok fwd start L -> Gpos G -> safe G fwd start L x -> sG (L x) <= B ->
  exists l C, route idw (lnk B L) l x start C /\ C <= sG (L x).
Proof.
  intros V GP Hx. induction Hx as [|x p w Hn Hb Hp IH Hin Hle Hv Hf]; intros HB.
  - exists [start], 0. split; [constructor|]. pose proof (vo_g _ _ _ V start). lia.
  - pose proof (GP _ _ _ Hin). pose proof (safe_nu _ _ _ _ _ V Hp). pose proof (safe_fin _ _ _ _ _ V Hp).
    destruct IH as (l&C&HR&HC); [lia|]. destruct (route_head _ _ _ _ _ _ HR) as (l'&->). exists (x :: p :: l'), (w + C).
    split; [|lia]. apply (route_cons idw); [|done]. split_and!; try done; lia.
Qed.
End chain.

(** bestnextstate pointers as GetSearchPath follows them. *)
Definition fl (target : nat) (c : core) (R : nat -> nat -> Z -> Prop) (u v : nat) (w : Z) : Prop :=
  R u v w /\ u <> target /\ exists r, cSt c !! u = Some r /\ sNext r = Some v /\ sG r <> INFINITECOST /\ sG r <= sV r.
Lemma ad_follow_route target c R l a C : route idw (fl target c R) l a target C ->
  forall n acc, ad_follow n target a c acc = Ok (if (length l <=? S n)%nat then acc ++ tail l else []).
Proof.
  remember target as z eqn:Ez. rewrite Ez at 1.
  induction 1 as [a|a b l z w C (HR&Hne&r&Er&En&Eg&Ev) Hr IH]; intros n acc.
  - subst. destruct n; cbn [ad_follow]; rewrite Nat.eqb_refl; by rewrite app_nil_r.
  - subst. assert ((a =? target)%nat = false) as Eq by by apply Nat.eqb_neq. destruct n as [|n]; cbn [ad_follow]; rewrite Eq; [done|].
    unfold rdst. rewrite Er. cbn [dlift obind]. rewrite En. destruct (sG r =? INFINITECOST) eqn:E0; [lia|].
    destruct (sV r <? sG r) eqn:E1; [lia|]. rewrite IH by done. cbn [length]. destruct (S (length l) <=? S n)%nat eqn:E2.
    + replace (S (S (length l)) <=? S (S n))%nat with true by lia. cbn. by rewrite <- app_assoc.
    + by replace (S (S (length l)) <=? S (S n))%nat with false by lia.
Qed.

Section fwd.
Context (G : nat -> list (nat * Z)) (e : aenv) (call : Z) (start goal : nat).
Notation lkc := (lk e true call).
Lemma lnk_sim B c c' u v w : sim c c' -> lnk G true start B (lkc c) u v w -> lnk G true start B (lkc c') u v w.
Proof.
  intros S. destruct (sim_lk e true call c c' u S) as (Vu&Gu&_&_&Pu&_), (sim_lk e true call c c' v S) as (Vv&Gv&_&_&_&_).
  unfold lnk, get_bp. rewrite Vu, Gu, Pu, Vv, Gv. done.
Qed.
Lemma ad_reconstruct_route n : forall x c l C, route idw (lnk G true start (sG (lkc c goal)) (lkc c)) l x start C -> sG (lkc c x) <= sG (lkc c goal) ->
  exists c', sim c c' /\ (forall u, sG (lkc c x) <= sG (lkc c u) -> cSt c' !! u = cSt c !! u) /\
    ad_reconstruct n start x c = Ok (if (length l <=? S n)%nat then 1 else 0, c') /\
    ((length l <= S n)%nat -> route idw (fl goal c' (fun u v w => (v, w) ∈ G u)) (reverse l) start x C).
Proof.
  induction n as [|n IH]; intros x c l C HR Hx; cbn [ad_reconstruct]; inversion HR as [a|a p l' z w C' Hl HR']; subst.
  - rewrite Nat.eqb_refl. exists c. split_and!; try done; [apply sim_refl|]. intros _. constructor.
  - destruct Hl as (Hn&Hb&Hin&Hle&Hw&Hv&Hf&Hvp&HB&Hfp). assert ((x =? start)%nat = false) as -> by by apply Nat.eqb_neq.
    exists c. split_and!; try done; [apply sim_refl|]. cbn. lia.
  - rewrite Nat.eqb_refl. exists c. split_and!; try done; [apply sim_refl|]. intros _. constructor.
  - destruct Hl as (Hn&Hb&Hin&Hle&Hw&Hv&Hf&Hvp&HB&Hfp). assert ((x =? start)%nat = false) as -> by by apply Nat.eqb_neq.
    rewrite (rdst_finite e true call c x) by auto. cbn [dlift obind]. destruct (sG (lkc c x) =? INFINITECOST) eqn:Einf; [lia|].
    cbn in Hb. rewrite Hb. destruct (lk_finite e true call c p) as (b&Eb&Ebc&Elb); [auto|].
    rewrite (rdst_finite e true call c p) by auto. cbn [dlift obind]. destruct (sV (lkc c p) >=? sG (lkc c x)) eqn:Ege; [lia|].
    rewrite Elb. set (c1 := set_st c p _). assert (sim c c1) as S1 by by apply sim_set.
    pose proof (fun s => sim_lk e true call c c1 s S1) as HL.
    assert (forall u, sG (lkc c1 u) = sG (lkc c u)) as HG by (intros u; by destruct (HL u) as (_&->&_)).
    destruct (IH p c1 (p :: l') C') as (c'&S'&Hfr&E'&Hr').
    { rewrite HG. eapply route_impl; [|exact HR']. intros u v w'. by apply lnk_sim. }
    { rewrite !HG. lia. }
    exists c'. split; [by eapply sim_trans|]. split.
    { intros u Hu. rewrite Hfr by (rewrite !HG; lia). unfold c1. cbn. rewrite lookup_insert_ne; [done|]. intros ->. lia. }
    rewrite E'. cbn [length]. split; [by destruct (length l'); cbn|]. intros Hlen. rewrite reverse_cons. replace (w + C') with (C' + w) by lia.
    apply (route_snoc idw _ _ _ p); [apply Hr'; cbn; lia|]. split; [done|]. split; [intros ->; lia|].
    rewrite Hfr by lia. unfold c1. cbn. rewrite lookup_insert. eexists. split; [reflexivity|]. cbn. rewrite <- Elb. split_and!; [done|lia|lia].
Qed.
End fwd.

Lemma route_rev (R R' : nat -> nat -> Z -> Prop) l a b C : route idw R l a b C -> (forall u v w, R u v w -> R' v u w) -> route idw R' (reverse l) b a C.
Proof.
  intros H HR. induction H as [a|a b l z w C Hr H IH]; [constructor|]. rewrite reverse_cons. replace (w + C) with (C + w) by lia.
  apply (route_snoc idw _ _ _ b); auto.
Qed.

(** What [GetSearchPath] returns. *)
Definition clip (l : list nat) : list nat := if (length l <=? S max_steps)%nat then l else [].
Lemma ad_path_spec G e fwd call start goal p : vok fwd start (lk e fwd call (aC p)) -> Gpos G -> safe G fwd start (lk e fwd call (aC p)) goal ->
  aFwd p = fwd -> aStart p = Some start -> aGoal p = Some goal ->
  exists l c' C, ad_path p = Ok (clip l, c') /\ (if fwd then sim (aC p) c' else c' = aC p) /\
    route idw (fun u v w => gedge fwd G u v w /\ (if fwd then u else v) <> goal) l (if fwd then start else goal) (if fwd then goal else start) C /\
    C <= sG (lk e fwd call (aC p) goal).
Proof.
  intros V GP Hs Hf Es Eg. destruct (safe_chain G fwd start (sG (lk e fwd call (aC p) goal)) _ goal V GP Hs ltac:(lia)) as (l&C&HR&HC).
  unfold ad_path, clip. rewrite Es, Eg, Hf. generalize max_steps. intros ms. destruct fwd.
  - destruct (ad_reconstruct_route G e call start goal ms goal (aC p) l C HR ltac:(lia)) as (c'&Sm&_&E1&Hr).
    rewrite E1. cbn [obind fst snd]. exists (reverse l), c'.
    assert (route idw (fun u v w => (v, w) ∈ G u /\ u <> goal) (reverse l) start goal C) as HR2.
    { pose proof (route_rev _ (fun u v w => (v, w) ∈ G u /\ u <> goal) _ _ _ _ HR) as R. apply R.
      intros u v w (Hn&Hb&Hin&Hle&Hw&Hv&Hfi&Hvp&HB&Hfp). split; [done|]. intros ->. lia. }
    exists C. rewrite reverse_length. destruct (length l <=? S ms)%nat eqn:El; cbn [Z.eqb Pos.eqb negb].
    + rewrite (ad_follow_route goal c' _ (reverse l) start C (Hr ltac:(lia))). cbn [obind]. rewrite reverse_length, El.
      destruct (route_head _ _ _ _ _ _ HR2) as (l'&El'). rewrite El' in *. split_and!; done.
    + split_and!; done.
  - assert (route idw (fl start (aC p) (fun u v w => (u, w) ∈ G v /\ v <> goal)) l goal start C) as HR1.
    { eapply route_impl; [|exact HR]. intros u v w (Hn&Hb&Hin&Hle&Hw&Hv&Hfi&Hvp&HB&Hfp). split; [split; [done|intros ->; lia]|]. split; [done|].
      destruct (lk_finite e false call (aC p) u) as (a&Ea&_&El); [auto|]. exists a. rewrite El in *. split_and!; [done|done|lia|lia]. }
    rewrite (ad_follow_route start (aC p) _ l goal C HR1). cbn [obind]. exists l, (aC p), C. unfold clip.
    destruct (route_head _ _ _ _ _ _ HR) as (l'&->). split_and!; [|done| |done].
    + by destruct (length (goal :: l') <=? S ms)%nat.
    + eapply route_impl; [|exact HR1]. intros u v w ([? ?]&_). done.
Qed.
