From Coq Require Import ZifyBool ZifyNat QArith Qround Lqa.
From Verif Require Import Base KeyModel HeapModel HeapProofs ListModel ListProofs AngleModel AngleProofs AraModel AraSpec AraProofs AraPath AraProofs7 AnaModel AnaSpec AnaProofs AnaProofs2 AnaProofs3.
Local Open Scope Z_scope.
Ltac ncbn := cbn [nC nG nSat nIter nCall nGoal nStart nReinit nFwd nFirst fst snd].

Section search.
Context (G : nat -> list (nat * Z)) (e : aenv) (fwd con : bool) (start goal : nat).
Context (Hge : good_env fwd 1 G e) (Hsees : asees fwd con G e (Some goal)).
Notation lk := (lk e fwd).
Notation H s := (heur fwd e s).
Notation gl call c s := (sG (lk call c s)).
Notation vl call c s := (sV (lk call c s)).
Notation sr := (sr G (fun c => c)).
Notation gmono := (gmono e fwd).
Notation ainv := (ainv G e fwd).
Notation meas := (meas e fwd).
Notation satok := (satok G con start goal).

Definition ngl (p : ana) : Z := gl (nCall p) (nC p) goal.
Definition ncur (p : ana) : Prop := current (nCall p) (nC p) goal.
Definition nmeas (p : ana) (m : gmap nat ckey) : Z := meas (nCall p) goal (nC p) m.
Definition stat (p p' : ana) : Prop :=
  nFwd p' = nFwd p /\ nCall p' = nCall p /\ nFirst p' = nFirst p /\ nStart p' = nStart p /\ nGoal p' = nGoal p /\ nReinit p' = nReinit p.
Lemma stat_refl p : stat p p.
Proof. done. Qed.
Lemma stat_trans p1 p2 p3 : stat p1 p2 -> stat p2 p3 -> stat p1 p3.
Proof. intros (?&?&?&?&?&?) (?&?&?&?&?&?). unfold stat. split_and!; congruence. Qed.

Record alinv (p : ana) (m : gmap nat ckey) : Prop := {
  l_fwd : nFwd p = fwd;
  l_start : nStart p = Some start;
  l_goal : nGoal p = Some goal;
  l_reinit : nReinit p = false;
  l_call : 0 <= nCall p;
  l_inv : ainv (nCall p) start goal (nG p) None (nC p) m;
  l_G : nG p = ngl p \/ start = goal;
  l_sat : satok (nSat p) (ngl p);
  l_there : is_Some (cSt (nC p) !! goal) /\ is_Some (cSt (nC p) !! start);
  l_cur : ncur p \/ m <> ∅ /\ rgt (nSat p) (1, 1) = true
}.
Lemma aworth_spec p m : alinv p m -> aworth p = true <-> m <> ∅ /\ rgt (nSat p) (1, 1) = true.
Proof.
  intros L. unfold aworth. pose proof (rep_empty_cur (cOpen (nC p)) m (ai_rep _ _ _ _ _ _ _ _ _ _ (l_inv _ _ L))) as Hc.
  rewrite andb_true_iff. unfold emptyheap. destruct (Nat.eqb_spec (cur (cOpen (nC p))) 0) as [E|E]; cbn [negb].
  - rewrite (proj2 Hc E). naive_solver.
  - assert (m <> ∅) by (intros ->; by apply E, Hc). naive_solver.
Qed.
Lemma clk_meas p m : alinv p m -> 0 <= nmeas p m <= (Z.of_nat (eSize e) + 1) * INFINITECOST + 1.
Proof. intros L. by eapply meas_bound, l_inv. Qed.

Lemma refresh_goal p m : alinv p m -> exists c, refresh e fwd (nCall p) true (nC p) goal = Ok c /\
  ainv (nCall p) start goal (nG p) None c m /\ current (nCall p) c goal /\ (forall s, lk (nCall p) c s = lk (nCall p) (nC p) s) /\
  (forall s, is_Some (cSt (nC p) !! s) -> is_Some (cSt c !! s)).
Proof.
  intros L. destruct (l_there _ _ L) as [[a Ea] _].
  pose proof (ai_dom _ _ _ _ _ _ _ _ _ _ (l_inv _ _ L) goal a Ea) as [Hlt _].
  destruct (aget_refresh G e fwd (nCall p) start goal (nG p) None (nC p) m goal (l_inv _ _ L) (l_call _ _ L) Hlt)
    as (c&Ec&I&Hcur&HL&Hp&_).
  exists c. split_and!; try done. unfold GetState in Ec. destruct (eSize e <=? goal)%nat eqn:E; [lia|]. rewrite Ea in Ec. exact Ec.
Qed.
Lemma meas_lk call c c' m : (forall s, lk call c' s = lk call c s) -> meas call goal c' m = meas call goal c m.
Proof.
  intros HL. unfold AnaProofs.meas, sumv. rewrite HL. do 2 f_equal. generalize (seq 0 (eSize e)).
  induction l as [|u l IH]; cbn [foldr]; [done|]. by rewrite HL, IH.
Qed.

Lemma around_spec fuel clk p m n : alinv p m -> nmeas p m < Z.of_nat fuel ->
  exists p' m' n', around fuel e clk p n = Ok (p', n') /\ alinv p' m' /\ stat p p' /\ ncur p' /\ ngl p' <= ngl p /\
    nmeas p' m' <= nmeas p m /\ (n <= n')%nat /\ (m' = ∅ \/ ngl p' < INFINITECOST \/ late clk n n') /\
    (m <> ∅ -> (n < n')%nat /\ (clk n = true -> nmeas p' m' < nmeas p m)).
Proof.
  intros L Hf. unfold around, aImprovePath. rewrite (l_goal _ _ L), (l_fwd _ _ L).
  destruct (refresh_goal p m L) as (c0&E0&I0&Hc0&HL0&Hp0). rewrite E0. cbn [obind].
  destruct (aimprove_loop_spec G e fwd con Hge clk (u16 (nIter p + 1)) (nCall p) start goal Hsees (l_call _ _ L) fuel c0 m (nG p) n)
    as (c1&m1&G1&n1&E1&I1&HG1&M1&Hm1&Hn1&Hstop&Hprog); try done.
  { rewrite HL0. apply L. }
  { rewrite (meas_lk (nCall p) (nC p) c0 m HL0). exact Hf. }
  rewrite E1. cbn [obind fst snd].
  destruct (prune_spec G e fwd con Hge (nCall p) start goal G1 c1 m1 (nSat p) Hsees I1 HG1) as (c2&m2&sat2&E2&ES&I2&Hsat2&Hm2&Hemp).
  { apply (satok_le _ _ _ _ _ (ngl p)); [|apply L]. destruct M1 as (M1&_). specialize (M1 goal). rewrite HL0 in M1. exact M1. }
  rewrite E2. cbn [obind fst snd].
  rewrite (meas_lk (nCall p) (nC p) c0 m HL0) in Hm1, Hprog.
  assert (forall s, lk (nCall p) c2 s = lk (nCall p) c1 s) as HL2 by (intros s; unfold AraProofs.lk; by rewrite ES).
  assert (current (nCall p) c2 goal) as Hcur2. { unfold current. rewrite ES. apply M1. done. }
  eexists _, m2, n1. split; [reflexivity|].
  assert (gl (nCall p) c2 goal <= ngl p) as Hle.
  { rewrite HL2. destruct M1 as (M1&_). specialize (M1 goal). rewrite HL0 in M1. exact M1. }
  split.
  { split; unfold ngl, ncur; ncbn; try done; try apply L.
    - rewrite HL2. done.
    - rewrite ES. split; apply M1, Hp0, L.
    - by left. }
  split; [unfold stat; ncbn; by rewrite (l_fwd _ _ L), (l_goal _ _ L)|]. split; [done|]. unfold nmeas, ngl; ncbn. split; [done|]. split; [lia|]. split; [done|]. split.
  - rewrite HL2. destruct Hstop as [->|?]; [left; auto|by right].
  - intros Hm. destruct (Hprog Hm) as [? Hpr]. split; [done|]. intros Hk. specialize (Hpr Hk). unfold nmeas in *. lia.
Qed.

(** The main loop. *)
Lemma asearch_loop_spec fuel2 clk : (forall i j, (i <= j)%nat -> clk j = true -> clk i = true) ->
  (Z.of_nat (eSize e) + 1) * INFINITECOST + 1 < Z.of_nat fuel2 ->
  forall fuel p m n, alinv p m -> nmeas p m + 1 < Z.of_nat fuel \/ (1 <= fuel)%nat /\ clk n = false ->
  exists p' m' n', asearch_loop fuel fuel2 e clk p n = Ok (p', n') /\ alinv p' m' /\ stat p p' /\ ngl p' <= ngl p /\ (n <= n')%nat /\
    (clk n = true -> ncur p') /\
    (late clk n n' \/ (m' = ∅ \/ rgt (nSat p') (1, 1) = false) \/ nFirst p = true /\ (m' = ∅ \/ ngl p' < INFINITECOST)).
Proof.
  intros Hclk Hf2. induction fuel as [|fuel IH]; intros p m n L Hf.
  { pose proof (clk_meas p m L). lia. }
  cbn [asearch_loop]. destruct (aworth p) eqn:Ew.
  2:{ exists p, m, n. split_and!; try done.
      - intros _. destruct (l_cur _ _ L) as [?|Hw]; [done|]. apply (aworth_spec p m L) in Hw. congruence.
      - right; left. destruct (decide (m = ∅)) as [?|Hm]; [by left|right]. destruct (rgt (nSat p) (1, 1)) eqn:Er; [|done].
        assert (aworth p = true) by (by apply (aworth_spec p m L)). congruence. }
  apply (aworth_spec p m L) in Ew as [Hm Hr].
  destruct (clk n) eqn:Ek.
  2:{ exists p, m, (S n). split_and!; try done; [lia|]. left. exists n. split; [lia|done]. }
  destruct Hf as [Hf|[_ ?]]; [|done].
  destruct (around_spec fuel2 clk p m (S n) L) as (p1&m1&n1&E1&L1&S1&C1&Hg1&Hm1&Hn1&Hstop&Hprog).
  { pose proof (clk_meas p m L). lia. }
  rewrite E1. cbn [obind fst snd]. pose proof S1 as (_&_&Efi&_). destruct (nFirst p1) eqn:Ef.
  { exists p1, m1, n1. split_and!; try done; [lia|]. destruct Hstop as [?|[?|(j&?&?)]].
    - right; right. split; [congruence|by left].
    - right; right. split; [congruence|by right].
    - left. exists j. split; [lia|done]. }
  rewrite (l_goal _ _ L1). pose proof (rdst_current e fwd (nCall p1) (nC p1) goal C1) as Erd. rewrite Erd. cbn [obind].
  destruct (sG (lk (nCall p1) (nC p1) goal) =? INFINITECOST) eqn:Einf.
  { exists p1, m1, n1. split_and!; try done; [lia|]. destruct Hstop as [?|[?|(j&?&?)]].
    - right; left. by left.
    - unfold ngl in *. lia.
    - left. exists j. split; [lia|done]. }
  destruct (Hprog Hm) as [Hn1' Hdec].
  destruct (IH p1 m1 n1 L1) as (p2&m2&n2&E2&L2&S2&Hg2&Hn2&C2&Hres).
  { destruct (clk (S n)) eqn:Ek1; [left; specialize (Hdec eq_refl); lia|].
    destruct fuel as [|fuel']; [pose proof (clk_meas p m L); left; lia|]. right. split; [lia|].
    destruct (clk n1) eqn:Ek2; [|done]. rewrite (Hclk (S n) n1) in Ek1; [done|lia|done]. }
  exists p2, m2, n2. split; [done|]. split; [done|]. split; [by eapply stat_trans|]. split; [lia|]. split; [lia|]. split.
  - intros _. destruct (clk n1) eqn:Ek2; [by apply C2|]. 
    destruct fuel as [|fuel']; [done|]. cbn [asearch_loop] in E2. rewrite Ek2 in E2. destruct (aworth p1); by simplify_eq.
  - destruct Hres as [(j&?&?)|[?|(?&?)]].
    + left. exists j. split; [lia|done].
    + right; by left.
    + right; right. split; [congruence|done].
Qed.

(** Whatever the clock does, when the loop returns, the invariant holds. *)
Lemma aimprove_loop_fuel clk iter call fuel fuel' c GG n r : (fuel <= fuel')%nat ->
  aimprove_loop e fwd fuel clk iter call goal c GG n = Ok r -> aimprove_loop e fwd fuel' clk iter call goal c GG n = Ok r.
Proof.
  revert fuel' c GG n. induction fuel as [|fuel IH]; intros fuel' c GG n Hle; [done|].
  destruct fuel' as [|fuel']; [lia|]. cbn [aimprove_loop]. destruct (negb _); [|done]. destruct (clk n); [|done].
  destruct (lift XHeap (deleteminheap ckeyops (cOpen c))) as [q| | |]; try done. cbn [obind].
  destruct (rdst _ _) as [a| | |]; try done. cbn [obind]. destruct (_ =? goal)%nat; [done|].
  destruct (arelax_all _ _ _ _ _ _ _ _) as [c'| | |]; try done. cbn [obind]. destruct (rdst c' goal) as [b| | |]; try done. cbn [obind].
  apply IH. lia.
Qed.
Lemma around_fuel fuel fuel' clk p n r : nGoal p = Some goal -> nFwd p = fwd -> (fuel <= fuel')%nat -> around fuel e clk p n = Ok r -> around fuel' e clk p n = Ok r.
Proof.
  intros Hg Hfw Hle. unfold around, aImprovePath. rewrite Hg, Hfw. destruct (refresh _ _ _ _ _ _) as [c| | |]; try done. cbn [obind].
  destruct (aimprove_loop e fwd fuel _ _ _ _ _ _ _) as [q| | |] eqn:E1; try done. by rewrite (aimprove_loop_fuel _ _ _ fuel fuel' _ _ _ q).
Qed.
Lemma asearch_loop_inv fuel fuel2 clk : forall p m n r, alinv p m -> asearch_loop fuel fuel2 e clk p n = Ok r ->
  exists m', alinv r.1 m' /\ stat p r.1 /\ ngl r.1 <= ngl p /\ (clk n = true \/ ncur p -> ncur r.1).
Proof.
  induction fuel as [|fuel IH]; intros p m n r L; [done|]. cbn [asearch_loop].
  destruct (aworth p) eqn:Ew.
  2:{ intros [= <-]. exists m. split_and!; try done. intros _. cbn [fst]. destruct (l_cur _ _ L) as [?|Hw]; [done|].
      apply (aworth_spec p m L) in Hw. congruence. }
  destruct (clk n) eqn:Ek; [|intros [= <-]; exists m; split_and!; try done; by intros [?|?]].
  intros HE. apply obind_ok in HE as (q&Eq&HE).
  destruct (around_spec (Nat.max fuel2 (S (Z.to_nat (nmeas p m)))) clk p m (S n) L) as (p1&m1&n1&E1&L1&S1&C1&Hg1&_).
  { lia. }
  apply (around_fuel _ (Nat.max fuel2 (S (Z.to_nat (nmeas p m))))) in Eq; [|apply L|apply L|lia]. rewrite E1 in Eq. injection Eq as <-.
  cbn [fst snd] in HE. destruct (nFirst p1); [injection HE as <-; by exists m1|]. destruct (nGoal p1) as [g|]; [|done].
  apply obind_ok in HE as (ga&_&HE). destruct (sG ga =? INFINITECOST); [injection HE as <-; by exists m1|].
  destruct (IH p1 m1 _ _ L1 HE) as (m'&L'&S'&Hg'&C'). exists m'. split_and!; [done|by eapply stat_trans|lia|auto].
Qed.
Lemma asearch_loop_fuel fuel fuel2 fuel' fuel2' clk : (fuel <= fuel')%nat -> (fuel2 <= fuel2')%nat ->
  forall p m n r, alinv p m -> asearch_loop fuel fuel2 e clk p n = Ok r -> asearch_loop fuel' fuel2' e clk p n = Ok r.
Proof.
  revert fuel'. induction fuel as [|fuel IH]; intros fuel' Hle Hle2 p m n r L; [done|]. destruct fuel' as [|fuel']; [lia|].
  cbn [asearch_loop]. destruct (aworth p) eqn:Ew; [|done]. destruct (clk n) eqn:Ek; [|done].
  intros HE. apply obind_ok in HE as (q&Eq&HE).
  rewrite (around_fuel fuel2 fuel2' clk p (S n) q) by (done || apply L). cbn [obind].
  destruct (around_spec (Nat.max fuel2 (S (Z.to_nat (nmeas p m)))) clk p m (S n) L) as (p1&m1&n1&E1&L1&S1&C1&Hg1&_).
  { lia. }
  apply (around_fuel _ (Nat.max fuel2 (S (Z.to_nat (nmeas p m))))) in Eq; [|apply L|apply L|lia]. rewrite E1 in Eq. injection Eq as <-.
  cbn [fst snd] in *. destruct (nFirst p1); [done|]. destruct (nGoal p1) as [g|]; [|done].
  apply obind_ok in HE as (ga&Ega&HE). rewrite Ega. cbn [obind]. destruct (sG ga =? INFINITECOST); [done|].
  eapply IH; eauto. lia.
Qed.
End search.
