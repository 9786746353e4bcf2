From Coq Require Import ZifyBool ZifyNat QArith Qround Lqa.
From Verif Require Import Base KeyModel HeapModel HeapProofs ListModel ListProofs AngleModel AngleProofs AraModel AraSpec AraProofs AraPath AraProofs7 AnaModel AnaSpec AnaProofs AnaProofs2.
Local Open Scope Z_scope.

(** Search routes and user routes. *)
Section routes.
Context (G : nat -> list (nat * Z)).
Notation sr := (sr G (fun c => c)).
Lemma sr_edge_trans s t w z C : (t, w) ∈ G s -> sr t z C -> sr s z (w + C).
Proof.
  intros Hw. induction 1 as [|a b w' C R IH Hin].
  - rewrite Z.add_0_r. replace w with (0 + w) by lia. apply (sr_S G (fun c => c) s s t w 0); [constructor|done].
  - rewrite Z.add_assoc. by apply (sr_S G (fun c => c) s a).
Qed.
Lemma sr_aroute fwd s g C : sr s g C <-> aroute fwd G s g C.
Proof.
  split.
  - intros R. destruct fwd.
    + induction R as [|a b w C R [l IH] Hin]; [exists [s]; constructor|]. exists (l ++ [b]). by apply (route_snoc (fun c => c) _ l s a).
    + induction R as [|a b w C R [l IH] Hin]; [exists [s]; constructor|]. exists (b :: l). rewrite Z.add_comm.
      destruct (route_head _ _ _ _ _ _ IH) as (l'&->). by apply (route_cons (fun c => c)).
  - intros (l&R). destruct fwd; [|by apply sr_rev in R].
    rewrite <- (Z.add_0_l C). eapply sr_trans; [exact R|constructor].
Qed.
Lemma sr_pos s g C : (forall s t w, (t, w) ∈ G s -> 0 < w) -> sr s g C -> 0 <= C /\ (C = 0 -> s = g).
Proof.
  intros Hp. induction 1 as [|a b w C R [IH IH2] Hin]; [done|]. pose proof (Hp a b w Hin). split; [lia|]. intros; lia.
Qed.
End routes.

Section search.
Context (G : nat -> list (nat * Z)) (e : aenv) (fwd con : bool).
Context (Hge : good_env fwd 1 G e).
Notation lk := (lk e fwd).
Notation H s := (heur fwd e s).
Notation gl call c s := (sG (lk call c s)).
Notation vl call c s := (sV (lk call c s)).
Notation sr := (sr G (fun c => c)).
Notation gmono := (gmono e fwd).
Notation ainv := (ainv G e fwd).
Notation meas := (meas e fwd).
Lemma Gpos s t w : (t, w) ∈ G s -> 0 < w.
Proof. intros Hw. pose proof (edge_ok G e fwd Hge s t w Hw). lia. Qed.

(** On every route to the goal cheaper than GG, the heap holds a state to be expanded. *)
Lemma awalk call start goal GG c m : con = true -> asees fwd con G e (Some goal) -> ainv call start goal GG None c m ->
  forall s C, sr start s C -> forall R, sr s goal R -> C + R < GG ->
  gl call c s <= C \/ exists u, is_Some (m !! u) /\ gl call c u + H u <= C + R.
Proof.
  intros Hcon Hs I s C. induction 1 as [|s t w C HR IH Hin]; intros R HRR Hlt.
  - left. rewrite (ai_start _ _ _ _ _ _ _ _ _ _ I). done.
  - pose proof (sr_edge_trans G s t w goal R Hin HRR) as HsR.
    pose proof (Gpos s t w Hin) as Hw. destruct (sr_pos G t goal R Gpos HRR) as [HR0 _]. destruct (sr_pos G start s C Gpos HR) as [HC0 _].
    destruct (IH (w + R) HsR ltac:(lia)) as [Hle|(u&Hu&Hle)]; [|right; exists u; split; [done|lia]].
    pose proof (ai_GG _ _ _ _ _ _ _ _ _ _ I) as HGG.
    pose proof (as_adm _ _ _ _ _ Hs Hcon goal s (w + R) eq_refl (proj1 (sr_aroute G fwd s goal (w + R)) HsR)) as Ha.
    destruct (m !! s) eqn:Em.
    + right. exists s. split; [eauto|]. lia.
    + destruct (ai_closed _ _ _ _ _ _ _ _ _ _ I s ltac:(lia) Em) as [Hv|?]; [|lia].
      pose proof (as_adm _ _ _ _ _ Hs Hcon goal t R eq_refl (proj1 (sr_aroute G fwd t goal R) HRR)) as Hat.
      destruct (ai_edge _ _ _ _ _ _ _ _ _ _ I s t w ltac:(lia) Hin) as [?|[?|(?&?&_)]]; [left; lia|lia|done].
Qed.
Lemma afrontier call start goal GG c m C : con = true -> asees fwd con G e (Some goal) -> ainv call start goal GG None c m ->
  sr start goal C -> C < GG -> gl call c goal <= C \/ exists u, is_Some (m !! u) /\ gl call c u + H u <= C.
Proof.
  intros Hcon Hs I HC Hlt. destruct (awalk call start goal GG c m Hcon Hs I goal C HC 0) as [?|(u&?&?)]; [constructor|lia|by left|].
  right. exists u. split; [done|lia].
Qed.

(** What the remembered bound means. *)
Definition satok (start goal : nat) (sat : ratio) (gg : Z) : Prop :=
  0 <= sat.2 <= sat.1 /\ 1 <= sat.1 /\ (con = true -> forall C, sr start goal C -> gg * sat.2 <= sat.1 * C).
Lemma satok_le start goal sat gg gg' : gg' <= gg -> satok start goal sat gg -> satok start goal sat gg'.
Proof. intros Hle (?&?&HC). split_and!; try done; try lia. intros Hcon C HR. specialize (HC Hcon C HR). nia. Qed.

Lemma prune_spec call start goal GG c m sat : asees fwd con G e (Some goal) -> ainv call start goal GG None c m ->
  (GG = gl call c goal \/ start = goal) -> satok start goal sat (gl call c goal) ->
  exists c' m' sat', prune GG c sat = Ok (c', sat') /\ cSt c' = cSt c /\ ainv call start goal GG None c' m' /\
    satok start goal sat' (gl call c' goal) /\ meas call goal c' m' <= meas call goal c m /\ (m = ∅ -> m' = ∅).
Proof.
  intros Hs I HGG Hsat. unfold prune. pose proof (ai_rep _ _ _ _ _ _ _ _ _ _ I) as R. pose proof (ai_GG _ _ _ _ _ _ _ _ _ _ I) as HGGr.
  pose proof (ai_g _ _ _ _ _ _ _ _ _ _ I) as Hg.
  destruct (prune_loop_spec G e fwd Hge call GG m ltac:(pose proof (Hg goal); lia) (S (cur (cOpen c))) c m 1 (1, 1) sat)
    as (c1&m1&ep&sat1&E1&ES&R1&Hsub&Hleft&Hbound&He1&He2&Hsat1&Hsat2); try done.
  { intros u Hu. pose proof (ai_heap _ _ _ _ _ _ _ _ _ _ I u Hu). pose proof (Hg u).
    split; [|lia]. destruct (lk_finite e fwd call c u) as (a&?&?&_); [lia|]. by exists a. }
  { apply (ai_h _ _ _ _ _ _ _ _ _ _ I). }
  { lia. }
  { intros u Hu. left. destruct Hu as [k Hk]. destruct R as (_&_&_&R4&_). destruct (R4 u k Hk) as [? ?]. exists (idxof (cOpen c) u), k. auto. }
  { intros u Hu. by left. }
  rewrite E1. cbn [obind fst snd].
  destruct (makeheap_spec ckeyops ckeylaws (cOpen c1) m1 R1) as (h2&E2&R2&O2). rewrite E2. cbn [lift obind].
  assert (forall u, lk call (mkCore (cSt c1) h2 (cInc c1)) u = lk call c u) as HL by (intros u; unfold lk; cbn [cSt]; by rewrite ES).
  exists (mkCore (cSt c1) h2 (cInc c1)), m1, sat1. split_and!; try done.
  - split; cbn [cOpen cSt]; try (intros; rewrite ?HL in *; by apply I); try done.
    + rewrite ES. apply I.
    + intros u Hu. rewrite HL. apply (ai_heap _ _ _ _ _ _ _ _ _ _ I). auto.
    + intros u Hu Hus. rewrite HL in *. destruct (ai_back _ _ _ _ _ _ _ _ _ _ I u Hu Hus) as (p&w&?&?&?&?). exists p, w. by rewrite HL.
    + intros u Hu Hm. rewrite HL in *. destruct (m !! u) as [k|] eqn:Em.
      * right. destruct (Hleft u ltac:(eauto)) as [[? ?]|?]; [congruence|done].
      * by apply (ai_closed _ _ _ _ _ _ _ _ _ _ I).
  - rewrite HL. destruct (decide (m = ∅)) as [->|Hm].
    + pose proof (proj1 (rep_empty_cur _ ∅ R) eq_refl) as Ec. by rewrite Hsat2 by lia.
    + assert (cur (cOpen c) <> 0)%nat as Hc by (intros Hz; apply Hm; by apply (rep_empty_cur _ m R)).
      rewrite Hsat1 by (right; lia). split_and!; try done; try lia. intros Hcon C HC.
      destruct (sr_pos G start goal C Gpos HC) as [HC0 _].
      destruct (decide (GG <= C)) as [?|?]; [pose proof (Hg goal); nia|].
      destruct (afrontier call start goal GG c m C Hcon Hs I HC ltac:(lia)) as [Hle|(u&Hu&Hle)].
      * pose proof (Hg goal). nia.
      * specialize (Hbound u Hu). nia.
  - unfold meas, sumv. rewrite HL. assert (inb m1 goal <= inb m goal).
    { unfold inb. destruct (m1 !! goal) eqn:E; [|pose proof (inb_range m goal); unfold inb in *; lia].
      destruct (Hsub goal ltac:(eauto)) as [? ->]. done. }
    assert (foldr (λ u acc, vl call (mkCore (cSt c1) h2 (cInc c1)) u + acc) 0 (seq 0 (eSize e)) = foldr (λ u acc, vl call c u + acc) 0 (seq 0 (eSize e))) as ->; [|lia].
    generalize (seq 0 (eSize e)). induction l as [|u l IH]; cbn [foldr]; [done|]. by rewrite HL, IH.
  - intros ->. apply map_empty. intros u. destruct (m1 !! u) eqn:E; [|done]. destruct (Hsub u ltac:(eauto)) as [? Hx]. by rewrite lookup_empty in Hx.
Qed.
End search.
