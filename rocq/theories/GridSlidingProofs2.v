From Coq Require Import ZifyBool Sorting.Sorted.
From Verif Require Import Base DistModel DistProofs HeapModel HeapProofs SlidingModel SlidingSpec SlidingProofs GridModel GridSpec GridProofs GridProofs2 GridProofs3 GridSlidingModel GridSlidingProofs.
Ltac Zify.zify_post_hook ::= idtac.
Local Open Scope Z_scope.

(** ** The object between calls *)
Record gbinv (g : gsb) : Prop := {
  gbi_wf : gwf (gbS g);
  gbi_iter : 0 <= gsIter (gbS g) /\ forall i, accof (gbS g) i <= gsIter (gbS g);
  gbi_dist : gsDist (gbS g) = (trunc (fmulz (gsCell (gbS g)) 1000), trunc (fmulz (gsCell (gbS g)) 1414), trunc (fmulz (gsCell (gbS g)) 2236));
  gbi_pos : 0 <= (gsDist (gbS g)).1.1 /\ 0 <= (gsDist (gbS g)).1.2 /\ 0 <= (gsDist (gbS g)).2;
  gbi_max : 1 <= maxdistance (gbS g) /\ 255 * maxdistance (gbS g) + INFINITECOST <= 2147483647;
  gbi_list : exists w, srep (gbL g) w /\ sN (gbL g) = 255 * maxdistance (gbS g) /\ sSize (gbL g) = Z.max 1000 (gsW (gbS g) + gsH (gbS g))
}.
Section searchspec.
Context (grid : Z -> Z -> Z) (obs : Z) (tc : term).
(** What one successful search leaves behind. *)
Record bresult (g g' : gsb) (start goal : Z * Z) : Prop := {
  br_largest : 0 <= gsLargest (gbS g') <= INFINITECOST;
  br_sound : forall c, inblocks (gsW (gbS g)) (gsH (gbS g)) c -> let i := cellid (gbS g) c.1 c.2 in accof (gbS g') i = gsIter (gbS g') ->
    0 <= gof (gbS g') i <= INFINITECOST /\ (gof (gbS g') i < INFINITECOST -> path grid (gsW (gbS g)) (gsH (gbS g)) (gsDown (gbS g)) obs (gsDist (gbS g)) start c (gof (gbS g') i));
  br_complete : forall c p, inblocks (gsW (gbS g)) (gsH (gbS g)) c -> path grid (gsW (gbS g)) (gsH (gbS g)) (gsDown (gbS g)) obs (gsDist (gbS g)) start c p -> let i := cellid (gbS g) c.1 c.2 in
    (accof (gbS g') i = gsIter (gbS g') /\ gof (gbS g') i <= p) \/ gsLargest (gbS g') <= p \/ INFINITECOST <= p;
  br_stop : gsLargest (gbS g') = INFINITECOST \/ exists key, 0 <= key /\ bgoes_on tc (gof (gbS g') (cellid (gbS g) goal.1 goal.2)) key = false;
  br_goal : accof (gbS g') (cellid (gbS g) goal.1 goal.2) = gsIter (gbS g')
}.
Definition bstatic (s : gsearch) (goal : Z * Z) (t : term) :=
  (gsMapW s, gsMapH s, gsW s, gsH s, gsCell s, gsDown s, gsDist s, gsIter s + 1, goal, t).

Lemma bsearch_ok (g : gsb) (start goal : Z * Z) :
  gbinv g -> (forall x y, 0 <= grid x y) -> obs <= 255 -> (forall x y, grid x y < obs -> grid x y <= 253) ->
  (search_withslidingbuckets grid obs tc g start.1 start.2 goal.1 goal.2 = Exn GFull /\ Z.max 1000 (gsW (gbS g) + gsH (gbS g)) < gsW (gbS g) * gsH (gbS g) /\
     inblocks (gsW (gbS g)) (gsH (gbS g)) start /\ inblocks (gsW (gbS g)) (gsH (gbS g)) goal) \/
  exists b g', search_withslidingbuckets grid obs tc g start.1 start.2 goal.1 goal.2 = Ok (b, g') /\ gbinv g' /\
    (b = true <-> inblocks (gsW (gbS g)) (gsH (gbS g)) start /\ inblocks (gsW (gbS g)) (gsH (gbS g)) goal) /\ static (gbS g') = bstatic (gbS g) goal (if b then tc else gsTerm (gbS g)) /\
    (b = true -> bresult g g' start goal).
Proof.
  intros G Hgrid Hobs Hdear. destruct (gbi_list _ G) as (w0'&R0&EN0&ES0). destruct (gbi_iter _ G) as [Hit Hacc]. set (s := gbS g) in *.
  unfold search_withslidingbuckets. fold s. cbn [gsMapW gsMapH gsW gsH gsCell gsDown gsDist gsIter gsG gsAcc gsOpen gsGoal gsLargest gsTerm].
  set (sf := mkGS (gsMapW s) (gsMapH s) (gsW s) (gsH s) (gsCell s) (gsDown s) (gsDist s) (gsIter s + 1) (gsG s) (gsAcc s) (gsOpen s) (goal.1, goal.2) (gsLargest s) (gsTerm s)).
  set (s1 := mkGS (gsMapW s) (gsMapH s) (gsW s) (gsH s) (gsCell s) (gsDown s) (gsDist s) (gsIter s + 1) (gsG s) (gsAcc s) (gsOpen s) (goal.1, goal.2) (gsLargest s) tc).
  assert (forall x y, withinMap sf x y = bool_decide (inblocks (gsW s) (gsH s) (x, y))) as Hwm. { intros x y. unfold withinMap, inblocks. cbn [sf gsW gsH fst snd]. destruct (bool_decide _) eqn:E; [apply bool_decide_eq_true in E; lia|apply bool_decide_eq_false in E; lia]. }
  rewrite !Hwm, <- !surjective_pairing.
  assert (gbinv (mkGSB sf (gbL g))) as Gf.
  { split; cbn [gbS gbL]; [apply (gbi_wf _ G)|split; [cbn; lia|]; intros i; specialize (Hacc i); change (accof sf i) with (accof s i); cbn; lia|apply (gbi_dist _ G)|apply (gbi_pos _ G)|apply (gbi_max _ G)|by exists w0']. }
  assert (static sf = bstatic s goal (gsTerm s)) as Hsf by (unfold bstatic, static; cbn; by rewrite <- surjective_pairing).
  destruct (bool_decide (inblocks (gsW s) (gsH s) start)) eqn:Es; destruct (bool_decide (inblocks (gsW s) (gsH s) goal)) eqn:Egl; cbn [negb orb];
    try (right; exists false, (mkGSB sf (gbL g)); split; [done|]; split; [done|]; split; [|done]; split; [done|]; intros [? ?]; repeat match goal with H : bool_decide _ = false |- _ => apply bool_decide_eq_false in H end; done).
  apply bool_decide_eq_true in Es, Egl. clear Gf Hsf Hwm sf.
  assert (gwf s1) as Hwf1 by apply (gbi_wf _ G).
  set (si := cellid s1 start.1 start.2). set (gi := cellid s1 goal.1 goal.2).
  destruct (cellof_cellid s1 s1 start eq_refl Es) as [Esi Hvs]. destruct (cellof_cellid s1 s1 goal eq_refl Egl) as [Egi Hvg]. fold si in Esi, Hvs. fold gi in Egi, Hvg.
  set (s3 := set_g (binitialize (binitialize s1 si) gi) si 0).
  change (gsW (set_g (binitialize (binitialize s1 si) gi) si 0)) with (gsW s1) in *. change (gsH (set_g (binitialize (binitialize s1 si) gi) si 0)) with (gsH s1) in *.
  assert (static s3 = static s1) as Hst3 by done.
  assert (forall i, accof s3 i = if decide (i = si \/ i = gi) then gsIter s1 else accof s i) as Hacc3.
  { intros i. change (accof s3 i) with (accof (set_acc (set_acc s1 si) gi) i). rewrite !accof_set_acc. change (gsIter (set_acc s1 si)) with (gsIter s1). destruct (decide (i = gi)), (decide (i = si)); destruct (decide (i = si \/ i = gi)); try done; tauto. }
  assert (forall i, gof s3 i = if decide (i = si) then 0 else if decide (i = gi) then INFINITECOST else gof s i) as Hg3.
  { intros i. unfold s3. rewrite gof_set_g. destruct (decide (i = si)); [done|]. change (gof (binitialize (binitialize s1 si) gi) i) with (gof (set_g (set_g s1 si INFINITECOST) gi INFINITECOST) i). rewrite !gof_set_g. destruct (decide (i = gi)); [done|]. by rewrite decide_False. }
  assert (gof s3 si = 0) as Egs by (by rewrite Hg3, decide_True). change (cellid s1 start.1 start.2) with si. change (cellid s1 goal.1 goal.2) with gi. fold s3. rewrite Egs.
  change (gsW s3) with (gsW s1). change (gsH s3) with (gsH s1).
  destruct (gbi_max _ G) as [HD Hsm]. fold s in HD, Hsm. destruct (reset_srep _ _ (gbL g) w0' R0 EN0 ES0) as (R1&EN1&ES1). change (maxdistance s) with (maxdistance s1) in *. set (D := maxdistance s1) in *. set (bsz := Z.max 1000 (gsW s + gsH s)) in *.
  pose proof (sinsert_spec (255 * D) bsz (sreset (gbL g)) w0 si 0 R1 EN1 ES1) as HI. cbn [wF w0] in HI. replace ((0 <=? 0 - 0) && (0 - 0 <? 255 * D)) with true in HI by lia.
  destruct HI as (l1&->&R2&EN2&ES2). { intros _. unfold slots, w0. cbn. unfold bsz. lia. } cbn [slift obind]. cbn [wstep wF w0] in R2. replace ((0 <=? 0 - 0) && (0 - 0 <? 255 * D)) with true in R2 by lia. cbn [snd wq wk wold place] in R2.
  set (w2 := mkW 0 [(0, si)] 0 (true && negb (0 =? 0))) in *.
  assert (gsIter s1 = gsIter s + 1) as Eit by done.
  assert (bbase grid obs s1 si bsz ∅ (mkGSB s3 l1) w2) as B.
  { split; cbn [gbS gbL].
    - done.
    - done.
    - cbn. lia.
    - intros k i Hi. cbn in Hi. apply elem_of_list_singleton in Hi as [= -> ->]. rewrite Hacc3, decide_True by auto. split; [done|]. rewrite Egs. unfold INFINITECOST; lia.
    - intros i Hi. rewrite Hacc3 in Hi. destruct (decide (i = si \/ i = gi)) as [Hd|Hd]; [|specialize (Hacc i); lia]. rewrite Hg3. destruct (decide (i = si)) as [->|Hne].
      + split; [done|]. split; [unfold INFINITECOST; lia|]. split; [right; left; left|]. intros _. apply path_nil.
      + destruct Hd as [| ->]; [done|]. rewrite decide_True by done. split; [done|]. split; [unfold INFINITECOST; lia|]. split; [auto|]. lia.
    - intros i Hi. by apply elem_of_empty in Hi.
    - rewrite Hacc3, decide_True by auto. done.
    - intros i. rewrite Hacc3. destruct (decide _); [lia|]. specialize (Hacc i). lia.
    - apply NoDup_singleton.
    - exists []. split; [done|]. split; [cbn; apply NoDup_singleton|]. intros i Hi. by apply elem_of_nil in Hi. }
  assert (edges grid obs s1 ∅ s3) as He by (intros i j c Hi; by apply elem_of_empty in Hi).
  pose proof (gbi_pos _ G) as Hpos. fold s in Hpos.
  destruct (bloop_ok grid obs tc s1 si bsz Hwf1 Hgrid Hobs Hdear Hpos HD Hsm Hvs gi (16 * Z.to_nat (gsW s1 * gsH s1) + 2)%nat ∅ (mkGSB s3 l1) w2 B He) as [[-> Hbig]|(g4&cl&w4&E4&B4&He4&Hmn&Hend)]; [rewrite size_empty; cbn; lia|by left|].
  rewrite E4. cbn [obind]. right. set (s4 := gbS g4) in *. pose proof (bb_static _ _ _ _ _ _ _ _ B4) as Hst4. fold s4 in Hst4. destruct (bb_rep _ _ _ _ _ _ _ _ B4) as (R4&EN4&ES4).
  assert (exists L l5 w5, (if sempty (gbL g4) then Ok (INFINITECOST, gbL g4) else do r <- slift (sgetmin (gbL g4)); match r.1 with None => UB | Some x => Ok (gof s4 x, r.2) end) = Ok (L, l5) /\
    srep l5 w5 /\ sN l5 = 255 * D /\ sSize l5 = bsz /\ bleast g4 w4 L /\ (wq w4 = [] -> L = INFINITECOST)) as (L&l5&w5&->&R5&EN5&ES5&HL&HL0).
  { rewrite (srep_empty _ _ R4). destruct (wq w4) as [|[k i] q] eqn:Eq.
    - rewrite bool_decide_true by done. exists INFINITECOST, (gbL g4), w4. split; [done|]. split; [done|]. split; [done|]. split; [done|]. split; [by left|done].
    - rewrite bool_decide_false by done. destruct (sgetmin_spec _ _ _ _ R4 EN4 ES4) as (r&l5&->&Ew&R5&EN5&ES5). cbn [wstep fst snd] in Ew, R5. rewrite Eq in Ew, R5. cbn in Ew. injection Ew as ->. cbn [slift obind fst snd].
      exists (gof s4 i), l5. eexists. split; [done|]. split; [exact R5|]. split; [done|]. split; [done|]. split; [|done]. right. by exists k, i, q. }
  cbn [obind fst snd]. set (s5 := set_largest s4 L). exists true, (mkGSB s5 l5). split; [done|].
  assert (static s5 = static s1) as Hst5 by done. pose proof (static_inv _ _ Hst5) as (F1&F2&F3&F4&F5&F6&F7&F8&F9&F10).
  destruct (bleast_le grid obs s1 si bsz Hgrid Hdear cl g4 w4 L B4 HL) as [HLb _].
  split; [|split; [done|split]].
  - split; cbn [gbS gbL].
    + unfold gwf. rewrite F1, F2, F3, F4, F6. apply Hwf1.
    + rewrite F8. split; [lia|]. intros i. apply (bb_le _ _ _ _ _ _ _ _ B4).
    + rewrite F7, F5. apply (gbi_dist _ G).
    + rewrite F7. apply (gbi_pos _ G).
    + unfold maxdistance in *. rewrite F7. done.
    + exists w5. split; [done|]. unfold maxdistance in *. rewrite F7, F3, F4. done.
  - cbn [gbS]. rewrite Hst5. unfold bstatic, static, s1. cbn. by rewrite <- surjective_pairing.
  - intros _. split; cbn [gbS gbL].
    + done.
    + intros c Hc Ha. fold s in Hc, Ha |- *. set (i := cellid s c.1 c.2) in *. destruct (cellof_cellid s1 s1 c eq_refl Hc) as [Ec Hv]. change (cellid s1 c.1 c.2) with i in Ec, Hv. rewrite F8 in Ha. destruct (bb_acc _ _ _ _ _ _ _ _ B4 i Ha) as (_&Hg&_&Hp). split; [done|]. rewrite Ec, Esi in Hp. done.
    + intros c p Hc Hp. fold s in Hc, Hp |- *. set (i := cellid s c.1 c.2) in *. destruct (cellof_cellid s1 s1 c eq_refl Hc) as [Ec Hv]. change (cellid s1 c.1 c.2) with i in Ec, Hv. rewrite F8.
      assert (path grid (gsW s1) (gsH s1) (gsDown s1) obs (gsDist s1) (cellof s1 si) (cellof s1 i) p) as Hp' by (by rewrite Esi, Ec).
      destruct (bfinal_ok grid obs s1 si bsz Hwf1 Hgrid Hdear Hpos HD Hsm cl g4 w4 L B4 He4 HL i p Hv Hp') as [?|[?|?]]; auto.
    + destruct Hend as [Hend|Hend]; [left; by apply HL0|right]. exists (getminkey (gbL g4)). split; [|exact Hend]. destruct (srep_key _ _ R4) as [Hk _]. pose proof (bb_F _ _ _ _ _ _ _ _ B4). lia.
    + rewrite F8. apply Hmn. cbn [gbS]. change (cellid s goal.1 goal.2) with gi. by rewrite Hacc3, decide_True by auto.
Qed.
End searchspec.
