(** The planner object: invariant of all reachable worlds. *)
From Coq Require Import ZifyBool ZifyNat QArith Qround Lqa.
From Verif Require Import Base KeyModel HeapModel HeapProofs ListModel ListProofs AngleModel AngleProofs AraModel AraSpec AraProofs AraProofs2 AraPath.
Local Open Scope Z_scope.

(** * The invariant depends on the environment only through its size and the heuristic *)
Definition same_fields (fwd : bool) (a a' : astate) : Prop :=
  sV a' = sV a /\ sG a' = sG a /\ sIter a' = sIter a /\ lB fwd a' = lB fwd a.
Section sim.
Context (G : nat -> list (nat * Z)) (fwd con : bool).
Lemma cinv_sim e e' call iter start pend c c' m z : (eSize e <= eSize e')%nat -> cOpen c' = cOpen c -> cInc c' = cInc c ->
  (forall s, same_fields fwd (lk e fwd call c s) (lk e' fwd call c' s)) ->
  (forall s a', cSt c' !! s = Some a' -> exists a, cSt c !! s = Some a /\ sCall a' = sCall a) ->
  cinv G e fwd call iter start pend c m z -> cinv G e' fwd call iter start pend c' m z.
Proof.
  intros He Ho Hi HS Hd I.
  assert (forall s, sV (lk e' fwd call c' s) = sV (lk e fwd call c s)) as HV by (intros s; apply HS).
  assert (forall s, sG (lk e' fwd call c' s) = sG (lk e fwd call c s)) as HG by (intros s; apply HS).
  assert (forall s, sIter (lk e' fwd call c' s) = sIter (lk e fwd call c s)) as HI by (intros s; apply HS).
  assert (forall s, lB fwd (lk e' fwd call c' s) = lB fwd (lk e fwd call c s)) as HB by (intros s; apply HS).
  destruct I. split; rewrite ?Ho, ?Hi; try done.
  - intros s a' Ha'. destruct (Hd s a' Ha') as (a&Ha&->). destruct (ci_dom s a Ha). split; [lia|done].
  - intros s. rewrite HG, HV. apply ci_g.
  - intros s. rewrite HG, HV. apply ci_inc.
  - intros s. rewrite HI. apply ci_iter.
  - by rewrite HG.
  - intros s. rewrite HG, HB. intros Hs Hst. destruct (ci_back s Hs Hst) as (p&w&?&?&?&?). exists p, w. by rewrite HV.
  - intros s t w. rewrite HG, HV. apply ci_edge.
Qed.
Lemma iinv_sim e e' eps call iter start c c' m z : (forall s, same_fields fwd (lk e fwd call c s) (lk e' fwd call c' s)) ->
  iinv G e fwd con eps call iter start c m z -> iinv G e' fwd con eps call iter start c' m z.
Proof.
  intros HS I.
  assert (forall s, sV (lk e' fwd call c' s) = sV (lk e fwd call c s)) as HV by (intros s; apply HS).
  assert (forall s, sIter (lk e' fwd call c' s) = sIter (lk e fwd call c s)) as HI by (intros s; apply HS).
  destruct I. split.
  - intros s. rewrite HI. auto.
  - intros s. rewrite HI. auto.
  - intros s. rewrite HI, HV. auto.
  - intros Hc s C. rewrite HI, HV. auto.
Qed.
Lemma kinv_sim e e' eps call c c' m : (forall s, same_fields fwd (lk e fwd call c s) (lk e' fwd call c' s)) ->
  (forall s, heur fwd e' s = heur fwd e s) -> kinv e fwd eps call c m -> kinv e' fwd eps call c' m.
Proof. intros HS HH K s k Hk. destruct (HS s) as (_&->&_). rewrite HH. by apply K. Qed.
Lemma env_fields e e' call c s : same_fields fwd (lk e fwd call c s) (lk e' fwd call c s).
Proof. unfold lk. destruct (cSt c !! s) as [a|]; [destruct (sCall a =? call)|]; done. Qed.
Lemma hvals_fields e call c s : same_fields fwd (lk e fwd call c s) (lk e fwd call (Reevaluatehvals e fwd c) s).
Proof. unfold lk. cbn. rewrite map_lookup_imap. destruct (cSt c !! s) as [a|]; cbn; [destruct (sCall a =? call)|]; done. Qed.
Lemma hvals_valid e c : hvalid e fwd (Reevaluatehvals e fwd c).
Proof. intros s a. cbn. rewrite map_lookup_imap. destruct (cSt c !! s); cbn; [|done]. by intros [= <-]. Qed.
Lemma hvals_dom e c s a' : cSt (Reevaluatehvals e fwd c) !! s = Some a' -> exists a, cSt c !! s = Some a /\ sCall a' = sCall a.
Proof. cbn. rewrite map_lookup_imap. destruct (cSt c !! s) as [a|]; cbn; [|done]. intros [= <-]. by exists a. Qed.
Lemma hvals_present e c s : is_Some (cSt c !! s) -> is_Some (cSt (Reevaluatehvals e fwd c) !! s).
Proof. cbn. rewrite map_lookup_imap. intros [a ->]. cbn. eauto. Qed.
Lemma sim_fields e call c c' s : fwd = true -> sim c c' -> same_fields fwd (lk e fwd call c s) (lk e fwd call c' s).
Proof. intros -> S. destruct (sim_lk e true call c c' s S) as (?&?&?&?&?&?). split_and!; done. Qed.
Lemma sim_dom c c' s a' : sim c c' -> cSt c' !! s = Some a' -> exists a, cSt c !! s = Some a /\ sCall a' = sCall a.
Proof.
  intros (_&_&S3&S4) Ha'. destruct (cSt c !! s) as [a|] eqn:Ea; [|rewrite (S4 s Ea) in Ha'; done].
  destruct (S3 s a Ea) as (b&Hb&(_&_&_&Hc&_)). exists a. split; [done|]. congruence.
Qed.
End sim.

(** * The invariant *)
Definition INFQ : Q := inject_Z INFINITECOST.
Section pinv.
Context (fwd con : bool) (E : Q).
Definition satinv (G : nat -> list (nat * Z)) (e : aenv) (start : nat) (p : ara) : Prop :=
  aSat p = INFQ \/ exists goal, aGoal p = Some goal /\ current (aCall p) (aC p) goal /\
    (con = true -> forall C, sr G (inflate (aSat p)) start goal C -> sG (lk e fwd (aCall p) (aC p) goal) <= C).
Record pinv (G : nat -> list (nat * Z)) (e : aenv) (p : ara) : Prop := {
  p_fwd : aFwd p = fwd;
  p_E : (5 <= E < INFQ)%Q;
  p_ge : good_env fwd E G e;
  p_sees : sees fwd con G e (aGoal p);
  p_rep : exists m z, rep (cOpen (aC p)) m /\ ord ckeyops 1 (cOpen (aC p)) /\ lrep (cInc (aC p)) z /\
    forall s, is_Some (m !! s) \/ s ∈ z.*2 -> is_Some (cSt (aC p) !! s);
  p_dom : forall s a, cSt (aC p) !! s = Some a -> (s < eSize e)%nat /\ 0 <= sCall a <= aCall p;
  p_cnt : 0 <= aCall p /\ 0 <= aIter p;
  p_start : forall s, aStart p = Some s -> is_Some (cSt (aC p) !! s);
  p_goal : forall s, aGoal p = Some s -> is_Some (cSt (aC p) !! s);
  p_eps : (0 <= aEps p <= E)%Q;
  p_par : (0 <= aInit p <= E /\ 0 <= aFinal p <= E /\ 0 <= aDec p)%Q;
  p_hv : aReeval p = false -> aGoal p <> None -> hvalid e fwd (aC p);
  p_search : aReinit p = false -> exists start m z, aStart p = Some start /\ aGoal p <> None /\
    cinv G e fwd (aCall p) (aIter p) start None (aC p) m z /\
    (aNew p = false -> iinv G e fwd con (aEps p) (aCall p) (aIter p) start (aC p) m z) /\
    (aReeval p = false -> kinv e fwd (aEps p) (aCall p) (aC p) m) /\
    satinv G e start p
}.

Ltac wcbn := cbn [with_reeval with_reinit with_core with_sat with_eps with_new with_iter0 with_call_incr with_iter_incr with_goal with_start
  aC aEps aSat aIter aCall aGoal aStart aReeval aReinit aNew aFwd aFirst aInit aDec aFinal aWrap] in *.
(** ** Reinitialisation *)
Lemma refresh_present e call gs c t : is_Some (cSt c !! t) ->
  exists c', refresh e fwd call gs c t = Ok c' /\ (forall s, s <> t -> cSt c' !! s = cSt c !! s) /\
    (exists a, cSt c' !! t = Some a /\ (a = fresh_info e fwd call gs t \/ cSt c !! t = Some a /\ sCall a = call)).
Proof.
  intros [a Ea]. unfold refresh, rdst. rewrite Ea. cbn [obind]. destruct (sCall a =? call) eqn:Ec.
  - exists c. split_and!; try done. exists a. split; [done|]. right. split; [done|lia].
  - eexists. split; [reflexivity|]. cbn. split.
    + intros s Hs. by rewrite lookup_insert_ne.
    + eexists. rewrite lookup_insert. split; [done|]. by left.
Qed.

Lemma reinit_spec G e p s g : pinv G e p -> aStart p = Some s -> aGoal p = Some g -> hvalid e fwd (aC p) -> aCall p + 1 < 65536 ->
  exists p', ReInitializeSearchStateSpace e p = Ok p' /\ pinv G e p' /\ aReinit p' = false /\ aReeval p' = false /\ aNew p' = true /\
    aStart p' = Some s /\ aGoal p' = Some g /\ aIter p' = 0 /\ aEps p' = aInit p /\ aSat p' = INFQ /\ aCall p' = aCall p + 1 /\
    aInit p' = aInit p /\ aDec p' = aDec p /\ aFinal p' = aFinal p /\ aFirst p' = aFirst p /\ aFwd p' = aFwd p /\
    hvalid e fwd (aC p') /\ current (aCall p') (aC p') g /\ aWrap p' = aWrap p.
Proof.
  intros P Hs Hg Hv Hcall. pose proof P as [Pfwd PE Pge Psees (m&z&Rm&Om&Lz&Prz) Pdom Pcnt Pst Pgo Peps Ppar Phv _].
  unfold ReInitializeSearchStateSpace. wcbn.
  destruct (makeemptyheap_spec ckeyops _ _ Rm) as (h0&Eh0&Rh0&Oh0). rewrite Eh0. cbn [lift obind].
  assert (exists l0, makeemptylist (cInc (aC p)) = Ok l0 /\ lrep l0 []) as (l0&El0&Ll0).
  { unfold makeemptylist. destruct (makeempty_spec z _ Lz) as (l0&El&Ll). exists l0. split; [|done].
    assert (csize (cInc (aC p)) = length z) as -> by apply Lz. exact El. }
  rewrite El0. cbn [lift obind].
  rewrite Hs, Hg.
  set (call := u16 (aCall p + 1)). assert (call = aCall p + 1) as Ecall by (unfold call, u16; apply Z.mod_small; lia).
  clearbody call. subst call.
  set (c0 := mkCore (cSt (aC p)) h0 l0). rewrite Pfwd.
  (* every state is stale *)
  assert (forall u, lk e fwd (aCall p + 1) c0 u = fresh_info e fwd (aCall p + 1) true u) as HL0.
  { intros u. unfold lk. cbn. destruct (cSt (aC p) !! u) as [a|] eqn:Ea; [|done]. destruct (Pdom u a Ea) as (_&?).
    destruct (sCall a =? aCall p + 1) eqn:Ec; [lia|done]. }
  assert (forall u, ~ current (aCall p + 1) c0 u) as Hnc.
  { intros u (a&Ea&Ec). destruct (Pdom u a Ea) as (_&?). lia. }
  destruct (Pst s Hs) as [as0 Eas]. rewrite refresh_eq. cbn [cSt c0]. rewrite Eas.
  destruct (sCall as0 =? aCall p + 1) eqn:Ec0.
  { exfalso. apply (Hnc s). exists as0. split; [done|lia]. }
  cbn [obind]. set (c1 := ReInitializeSearchStateInfo e fwd (aCall p + 1) true c0 s).
  assert (rdst c1 s = Ok (fresh_info e fwd (aCall p + 1) true s)) as ->.
  { unfold rdst, c1. cbn. by rewrite lookup_insert. }
  cbn [obind]. cbn [fresh_info sV sIter sCall sPred sNext sCostNext sH].
  set (a1 := mkA INFINITECOST 0 0 (aCall p + 1) None None INFINITECOST (ComputeHeuristic e fwd s)).
  set (c2 := set_st c1 s a1).
  assert (forall u, lk e fwd (aCall p + 1) c2 u = if decide (u = s) then a1 else fresh_info e fwd (aCall p + 1) true u) as HL2.
  { intros u. unfold c2. rewrite (lk_set e fwd (aCall p + 1) c1 s a1 u) by done. destruct (decide (u = s)); [done|].
    unfold c1. rewrite reinit_lk by apply Hnc. apply HL0. }
  (* refresh of the goal *)
  assert (exists c3, refresh e fwd (aCall p + 1) true c2 g = Ok c3 /\ (forall u, lk e fwd (aCall p + 1) c3 u = lk e fwd (aCall p + 1) c2 u) /\
    (forall u, is_Some (cSt c2 !! u) -> is_Some (cSt c3 !! u)) /\ hvalid e fwd c3 /\ current (aCall p + 1) c3 g /\
    rep (cOpen c3) ∅ /\ ord ckeyops 1 (cOpen c3) /\ lrep (cInc c3) [] /\
    (forall u a, cSt c3 !! u = Some a -> (u < eSize e)%nat /\ 0 <= sCall a <= aCall p + 1)) as (c3&E3&HL3&Hpr&Hv3&Hcur3&R3&O3&L3&D3).
  { assert (hvalid e fwd c2) as Hv2.
    { intros u b. unfold c2, c1. cbn. destruct (decide (u = s)) as [->|?].
      - rewrite lookup_insert. by intros [= <-].
      - rewrite !lookup_insert_ne by done. apply Hv. }
    assert (rep (cOpen c2) ∅ /\ ord ckeyops 1 (cOpen c2) /\ lrep (cInc c2) []) as (R2&O2&L2).
    { unfold c2, c1. cbn. split_and!; [by apply idx_rep|done|]. apply elem_lrep; [done|]. apply not_elem_of_nil. }
    assert (forall u a, cSt c2 !! u = Some a -> (u < eSize e)%nat /\ 0 <= sCall a <= aCall p + 1) as D2.
    { intros u a. unfold c2, c1. cbn. destruct (decide (u = s)) as [->|?].
      - rewrite lookup_insert. intros [= <-]. cbn. destruct (Pdom s as0 Eas). split; [done|lia].
      - rewrite !lookup_insert_ne by done. intros Ha. destruct (Pdom u a Ha). split; [done|lia]. }
    destruct (current_dec (aCall p + 1) c2 g) as [(b&Eb&Ebc)|Hn].
    - exists c2. rewrite refresh_eq, Eb. replace (sCall b =? aCall p + 1) with true by lia. split_and!; try done. by exists b.
    - destruct (Pgo g Hg) as [ag Eag].
      assert (g <> s) as Hgs. { intros ->. apply Hn. exists a1. unfold c2. cbn. by rewrite lookup_insert. }
      assert (cSt c2 !! g = Some ag) as Eg2. { unfold c2, c1. cbn. by rewrite !lookup_insert_ne. }
      exists (ReInitializeSearchStateInfo e fwd (aCall p + 1) true c2 g). rewrite refresh_eq, Eg2.
      destruct (sCall ag =? aCall p + 1) eqn:Ecg. { exfalso. apply Hn. exists ag. split; [done|lia]. }
      split_and!.
      + done.
      + intros u. by apply reinit_lk.
      + intros u Hu. cbn [ReInitializeSearchStateInfo cSt]. destruct (decide (u = g)) as [->|?]; [rewrite lookup_insert; eauto|by rewrite lookup_insert_ne].
      + by apply reinit_hvalid.
      + exists (fresh_info e fwd (aCall p + 1) true g). cbn [ReInitializeSearchStateInfo cSt]. by rewrite lookup_insert.
      + cbn [ReInitializeSearchStateInfo cOpen]. by apply idx_rep.
      + done.
      + cbn [ReInitializeSearchStateInfo cInc]. apply elem_lrep; [done|]. apply not_elem_of_nil.
      + intros u a. cbn [ReInitializeSearchStateInfo cSt]. destruct (decide (u = g)) as [->|?].
        * rewrite lookup_insert. intros [= <-]. cbn. destruct (D2 g ag Eg2). split; [done|lia].
        * rewrite lookup_insert_ne by done. apply D2. }
  rewrite E3. cbn [obind].
  assert (lk e fwd (aCall p + 1) c3 s = a1) as El3 by (rewrite HL3, HL2; by rewrite decide_True).
  rewrite (rdst_finite e fwd (aCall p + 1) c3 s) by (rewrite El3; left; done). rewrite El3. cbn [obind sH a1].
  destruct (insertheap_spec ckeyops ckeylaws (cOpen c3) ∅ s (mkKey (toint (aInit p * inject_Z (ComputeHeuristic e fwd s))) 0) R3 O3) as (h4&Eh4&R4&O4).
  { done. } { by rewrite map_size_empty. }
  rewrite Eh4. cbn [lift obind]. eexists. split; [reflexivity|].
  assert (hvalid e fwd (mkCore (cSt c3) h4 (cInc c3))) as Hv4 by exact Hv3.
  assert (forall u, lk e fwd (aCall p + 1) (mkCore (cSt c3) h4 (cInc c3)) u = if decide (u = s) then a1 else fresh_info e fwd (aCall p + 1) true u) as HL4.
  { intros u. change (lk e fwd (aCall p + 1) (mkCore (cSt c3) h4 (cInc c3)) u) with (lk e fwd (aCall p + 1) c3 u). by rewrite HL3, HL2. }
  assert (cinv G e fwd (aCall p + 1) 0 s None (mkCore (cSt c3) h4 (cInc c3)) {[s := mkKey (toint (aInit p * inject_Z (ComputeHeuristic e fwd s))) 0]} []) as I4.
  { split; try done.
    - intros u k. rewrite lookup_singleton_Some. by intros [_ <-].
    - intros u. rewrite HL4. destruct (decide (u = s)); cbn; unfold INFINITECOST; lia.
    - intros u. rewrite HL4. destruct (decide (u = s)) as [->|?]; cbn.
      + rewrite lookup_singleton. split; [eauto|]. intros _. unfold INFINITECOST. lia.
      + rewrite lookup_singleton_ne by done. split; [lia|]. intros [[? [=]]|Hx]. by apply elem_of_nil in Hx.
    - intros u _. cbn. apply not_elem_of_nil.
    - intros u. rewrite HL4. destruct (decide (u = s)); cbn; lia.
    - rewrite HL4, decide_True by done. done.
    - intros u. rewrite HL4. destruct (decide (u = s)) as [->|?]; [done|]. cbn. lia.
    - intros u t w. rewrite HL4. destruct (decide (u = s)); cbn; lia. }
  assert (u16 (aCall p + 1) = aCall p + 1) as Eu by (unfold u16; apply Z.mod_small; lia).
  wcbn. rewrite ?Eu. split_and!; try done.
  2:{ destruct (aCall p + 1 >=? 65536) eqn:Ew; [lia|]. apply orb_false_r. }
  split; wcbn; cbn [cOpen cInc cSt]; rewrite ?Eu; try done.
  - exists {[s := mkKey (toint (aInit p * inject_Z (ComputeHeuristic e fwd s))) 0]}, []. split_and!; try done. intros u [[k Hu]|Hu].
    + apply lookup_singleton_Some in Hu as [<- _]. apply Hpr. unfold c2. cbn. rewrite lookup_insert. eauto.
    + by apply elem_of_nil in Hu.
  - lia.
  - rewrite Hs. intros u [= <-]. apply Hpr. unfold c2. cbn. rewrite lookup_insert. eauto.
  - rewrite Hg. intros u [= <-]. destruct Hcur3 as (b&Eb&_). rewrite Eb. eauto.
  - destruct Ppar as (?&_). lra.
  - intros _. exists s. eexists _, _. split_and!; [congruence|congruence|exact I4|done| |by left].
    intros _ u k. rewrite lookup_singleton_Some. intros [<- <-]. rewrite HL4, decide_True by done. cbn [sG a1].
    rewrite fkey_eq; [done|unfold INFINITECOST; lia|]. apply (toint_nonneg E (aInit p)); [tauto|apply Pge|apply Pge].
Qed.
End pinv.
