(** Lemmas for C63 - C66: histories of calls. *)
From Verif Require Import Base NavModel LatModel LatSpec LatProofs LatProofs2 LatProofs3 LatProofs4 LatProofs5 MlevModel MlevSpec MlevProofs MlevProofs2.
Local Open Scope Z_scope.

Section hist.
Context (N : Z) (k : nat) (ps : list prim) (OKps : prims_ok N k ps) (K : (k <= 256)%nat).
Local Notation sane := (sane N k ps).
Record msane (s : mlev) : Prop := mkMSane {
  ms_base : sane (mB s); ms_levs : forall l, l ∈ mLevs s -> lev_ok (cW (lC (mB s))) (cH (lC (mB s))) N k l; ms_alloc : mAlloc s = false -> mLevs s = [] }.
Lemma msane_good s : msane s -> mgood N k ps (mLevs s) (mB s).
Proof. intros [S L _]. split; [apply S|done]. Qed.
Lemma msane_base s e : msane s -> sane e -> lC e = lC (mB s) -> msane (with_base s e).
Proof. intros [S L A] S' E. split; simpl; [done|by rewrite E|done]. Qed.
(** What one call keeps. *)
Definition mkeeps (s s' : mlev) : Prop := keeps (mB s) (mB s').
Lemma mperform_spec s a : msane s -> mallowed s a -> exists s', mperform s a = Ok s' /\ msane s' /\ mkeeps s s'.
Proof using All.
  intros M Ha. pose proof M as [S L A]. pose proof (msane_good _ M) as MG.
  assert (EXT : forall e', mgood N k ps (mLevs s) e' -> ext (mB s) e' -> msane (with_base s e') /\ mkeeps s (with_base s e')).
  { intros e' G' X. split; [apply msane_base; [done|eapply sane_ext; [done|apply G'|done]|apply X]|]. by apply ext_keeps. }
  assert (BASE : forall b, allowed (mB s) b -> exists s', (do e <- perform (mB s) b; Ok (with_base s e)) = Ok s' /\ msane s' /\ mkeeps s s').
  { intros b Hb. destruct (perform_spec N k ps OKps (mB s) b S Hb) as (e' & E & S' & KK & _). rewrite E. simpl. eexists. split; [done|]. split; [|done]. apply msane_base; [done|done|apply KK]. }
  destruct a as [a|ys|m lev|x y v lev].
  - destruct a as [x y t|id|id|id|id|x y v|m|x y t|x y t|b|cells]; try (by apply (BASE (CGet _ _ _))); try (by apply (BASE (CUpdate _ _ _))); try (by apply (BASE (CSetMap _)));
      try (by apply (BASE (CStart _ _ _))); try (by apply (BASE (CGoal _ _ _))); try (by apply (BASE (CEnsure _))); simpl in Ha; [| | | |done]; destruct Ha as [u Au]; unfold mperform.
    + destruct (decide (id = lGoal (mB s))) as [-> |Hg].
      * unfold mSuccs. rewrite Nat.eqb_refl. simpl. eexists. split; [done|]. apply EXT; [done|apply ext_refl].
      * destruct (mSuccs_spec N k ps OKps K (mLevs s) (mB s) id u MG Au Hg) as (l & e' & E & G' & X & _). rewrite E. simpl. eexists. split; [done|]. by apply EXT.
    + destruct (mPreds_in N k ps OKps K (mLevs s) (mB s) id u MG Au) as (l & e' & E & G' & X & _). rewrite E. simpl. eexists. split; [done|]. by apply EXT.
    + destruct (decide (id = lGoal (mB s))) as [-> |Hg].
      * unfold mLazySuccs. rewrite Nat.eqb_refl. simpl. eexists. split; [done|]. apply EXT; [done|apply ext_refl].
      * destruct (mLazySuccs_spec N k ps OKps K (mLevs s) (mB s) id u [] MG Au Hg) as (l & e' & E & G' & X & _). rewrite E. simpl. eexists. split; [done|]. by apply EXT.
    + destruct (mLazyPreds_spec N k ps OKps K (mLevs s) (mB s) id u [] MG Au) as (l & e' & E & G' & X & _). rewrite E. simpl. eexists. split; [done|]. by apply EXT.
  - simpl. eexists. split; [done|]. split; [|split; auto]. pose proof (g_cfg _ _ _ _ (s_good _ _ _ _ S)) as C. split; simpl; [done| |done].
    intros l (y & -> & Hy)%elem_of_list_fmap. split; simpl.
    + by apply grid_ok_map.
    + by rewrite fmap_length, seq_length, (co_N _ _ _ _ C).
    + intros t row Hr. rewrite list_lookup_fmap in Hr. apply fmap_Some in Hr as (? & _ & ->). by rewrite fmap_length, seq_length, (co_k _ _ _ _ C).
  - destruct Ha as [Hm Hl]. simpl. unfold mSetLev. destruct (mAlloc s) eqn:EA; simpl. 2: { eexists. split; [done|]. done. }
    destruct (lookup_lt_is_Some_2 _ _ (Hl eq_refl)) as [l El]. rewrite El. simpl. eexists. split; [done|]. split; [|split; auto]. split; simpl; [done| |congruence].
    pose proof (L _ (elem_of_list_lookup_2 _ _ _ El)) as [L1 L2 L3].
    intros l' (j & Hj)%elem_of_list_lookup. destruct (decide (j = lev)) as [-> |Hne].
    + rewrite list_lookup_insert in Hj by (by eapply lookup_lt_Some). injection Hj as <-. split; simpl; [by apply grid_ok_map|done|done].
    + rewrite list_lookup_insert_ne in Hj by done. apply L. by eapply elem_of_list_lookup_2.
  - destruct Ha as (Hl & Hx & Hy & Hv). simpl. unfold mUpdLev. destruct (lookup_lt_is_Some_2 _ _ Hl) as [l El]. rewrite El.
    pose proof (L _ (elem_of_list_lookup_2 _ _ _ El)) as [L1 L2 L3]. destruct (proj1 L1 x y Hx Hy) as [v0 E0]. rewrite E0. simpl. eexists. split; [done|]. split; [|split; auto].
    split; simpl; [done| |]. 2: { intros F%A. rewrite F in El. done. }
    intros l' (j & Hj)%elem_of_list_lookup. destruct (decide (j = lev)) as [-> |Hne].
    + rewrite list_lookup_insert in Hj by (by eapply lookup_lt_Some). injection Hj as <-. split; simpl; [by apply grid_ok_insert|done|done].
    + rewrite list_lookup_insert_ne in Hj by done. apply L. by eapply elem_of_list_lookup_2.
Qed.
End hist.
Lemma hist_prims N k ps e s g : hist N k ps e s g -> prims_ok N k ps.
Proof. by induction 1. Qed.
Lemma mhist_sane N k ps s : mhist N k ps s -> prims_ok N k ps /\ (k <= 256)%nat /\ msane N k ps s.
Proof.
  induction 1 as [e K Hh|s a s' Hh (OKps & K & M) Ha E].
  - pose proof (hist_prims _ _ _ _ _ _ Hh) as OKps. split_and!; [done|done|]. split; simpl; [|by intros l H%elem_of_nil|done]. by apply (hist_sane N k ps OKps e None None).
  - split_and!; [done|done|]. destruct (mperform_spec N k ps OKps K s a M Ha) as (s2 & E2 & M2 & _). rewrite E in E2. by injection E2 as <-.
Qed.
Lemma counts_range N k ps s c p v : msane N k ps s -> counts (mLevs s) (mB s) c p v -> 0 <= v <= 255.
Proof.
  intros [[[I _] _ _] L _] Hc.
  assert (A : forall q, lGrid (mB s) !! q = Some v -> 0 <= v <= 255). { intros [x y] G. apply (li_grid _ I) in G. tauto. }
  destruct Hc as [G|[G|(o & _ & [G|(l & Hl & G)])]]; [eauto..|]. destruct (shift c o) as [x y]. apply (lo_grid _ _ _ _ _ (L l Hl)) in G. tauto.
Qed.
