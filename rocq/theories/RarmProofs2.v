(** ComputeHeuristicValues on square maps. *)
From Coq Require Import ZifyBool ZifyNat.
From Verif Require Import Base BfsSpec RarmSpec BresModel RarmModel RarmProofs.
Local Open Scope Z_scope.

Section square.
Context (w : Z) (grid : gmap (Z * Z) Z).
Context (Hw : 0 < w) (Hsz : w * w < INFINITECOST) (Hgrid : full_map w w grid).

Lemma create_ok : exists ss, Create2DStateSpace w w = Ok ss /\ wfss w w ss.
Proof.
  unfold Create2DStateSpace.
  set (P := fun (X Y : Z) (m : gmap (Z * Z) st2) => forall c, in_map w w c -> c.1 < X \/ (c.1 = X /\ c.2 < Y) ->
       m !! c = Some (mkSt2 INFINITECOST 0 (Some c))).
  destruct (ra_for_inv (fun k m => P (Z.of_nat k) 0 m) (seqZ 0 w) (fun x m =>
    let m := foldl (fun m y => <[(x, y) := mkSt2 0 0 None]> m) m (seqZ 0 w) in
    ra_for (seqZ 0 w) (fun y m =>
      if w <=? y then UB else Ok (<[(x, y) := mkSt2 INFINITECOST 0 (Some (u16 x, u16 y))]> m)) m) ∅) as (ss&E&HP).
  - intros c [? ?]. lia.
  - intros k x m Hx HP. apply lookup_seqZ in Hx as [-> Hk].
    assert (Hfold : forall ys m, P (Z.of_nat k) 0 m -> P (Z.of_nat k) 0 (foldl (fun m y => <[(0 + Z.of_nat k, y) := mkSt2 0 0 None]> m) m ys)).
    { induction ys as [|y ys IH]; intros m' Hm; [done|]. simpl. apply IH. intros c Hc Hlt.
      rewrite lookup_insert_ne; [by apply Hm|]. intros <-. destruct Hc. simpl in *. lia. }
    cbv zeta.
    destruct (ra_for_inv (fun j m => P (Z.of_nat k) (Z.of_nat j) m) (seqZ 0 w) (fun y m =>
      if w <=? y then UB else Ok (<[(0 + Z.of_nat k, y) := mkSt2 INFINITECOST 0 (Some (u16 (0 + Z.of_nat k), u16 y))]> m))
      (foldl (fun m y => <[(0 + Z.of_nat k, y) := mkSt2 0 0 None]> m) m (seqZ 0 w))) as (m'&E'&HP').
    + by apply Hfold.
    + intros j y m' Hy HP'. apply lookup_seqZ in Hy as [-> Hj]. destruct (Z.leb_spec w (0 + Z.of_nat j)); [lia|].
      eexists. split; [done|]. intros c Hc Hlt.
      assert (w < 65536) by (unfold INFINITECOST in Hsz; nia).
      unfold u16. rewrite !Z.mod_small by lia.
      destruct (decide (c = (0 + Z.of_nat k, 0 + Z.of_nat j))) as [-> |Hne]; [by rewrite lookup_insert|].
      rewrite lookup_insert_ne by done. apply HP'; [done|]. destruct Hlt as [?|[? ?]]; [by left|]. right. split; [done|].
      assert (c.2 <> Z.of_nat j); [|lia]. intros ?. apply Hne. destruct c; simpl in *; f_equal; lia.
    + exists m'. split; [done|]. intros c Hc Hlt. apply HP'; [done|]. rewrite seqZ_length.
      destruct (decide (c.1 < Z.of_nat k)); [by left|]. right. destruct Hc. lia.
  - exists ss. split; [done|]. intros c Hc. do 2 eexists. apply HP; [done|]. rewrite seqZ_length. destruct Hc. left. lia.
Qed.

Lemma heur_ok : exists H, ComputeHeuristicValues w w grid = Ok H /\
  forall src c, in_map w w src -> in_map w w c -> exists row v,
    H !! XYTO2DIND w src.1 src.2 = Some row /\ row !! XYTO2DIND w c.1 c.2 = Some v /\ shortest w w grid src c v.
Proof.
  unfold ComputeHeuristicValues. destruct create_ok as (ss&E&Hss). rewrite E. simpl.
  set (P := fun (X Y : Z) (s : gmap (Z * Z) st2 * gmap Z (gmap Z Z)) => wfss w w s.1 /\
    forall src, in_map w w src -> src.1 < X \/ (src.1 = X /\ src.2 < Y) -> exists row,
       s.2 !! ind w src = Some row /\ forall c, in_map w w c -> exists v, row !! ind w c = Some v /\ shortest w w grid src c v).
  destruct (ra_for_inv (fun k s => P (Z.of_nat k) 0 s) (seqZ 0 w) (fun x => ra_for (seqZ 0 w) (fun y (s : gmap (Z * Z) st2 * gmap Z (gmap Z Z)) =>
            do r <- Search2DwithQueue w w grid x y s.1;
            Ok (r.1, <[XYTO2DIND w x y := r.2]> s.2))) (ss, ∅)) as ([ss' H]&E2&HP).
  - split; [done|]. intros c [? ?]. simpl. lia.
  - intros k x s Hx HP. apply lookup_seqZ in Hx as [-> Hk].
    destruct (ra_for_inv (fun j s => P (Z.of_nat k) (Z.of_nat j) s) (seqZ 0 w) (fun y (s : gmap (Z * Z) st2 * gmap Z (gmap Z Z)) =>
            do r <- Search2DwithQueue w w grid (0 + Z.of_nat k) y s.1;
            Ok (r.1, <[XYTO2DIND w (0 + Z.of_nat k) y := r.2]> s.2)) s) as (s'&E'&HP').
    + exact HP.
    + intros j y [m H] Hy [Hwf HP']. apply lookup_seqZ in Hy as [-> Hj].
      set (src := (0 + Z.of_nat k, 0 + Z.of_nat j)).
      assert (in_map w w src) as Hsrc by (unfold in_map, src; simpl; lia).
      destruct (search_ok w w grid src Hw Hw Hsz Hgrid Hsrc m Hwf) as (m'&hr&E3&Hwf'&Hv).
      cbn [fst snd] in E3. change (src.1) with (0 + Z.of_nat k) in E3. change (src.2) with (0 + Z.of_nat j) in E3.
      simpl. rewrite E3. simpl. eexists. split; [done|]. split; [done|]. simpl. intros src' Hsrc' Hlt.
      change (XYTO2DIND w (0 + Z.of_nat k) (0 + Z.of_nat j)) with (ind w src).
      destruct (decide (src' = src)) as [-> |Hne].
      * exists hr. by rewrite lookup_insert.
      * assert (ind w src <> ind w src'). { intros Ei. apply Hne. symmetry. apply (ind_inj w w); auto. }
        rewrite lookup_insert_ne by done. apply HP'; [done|]. destruct Hlt as [?|[? ?]]; [by left|]. right. split; [done|].
        assert (src'.2 <> Z.of_nat j); [|lia]. intros ?. apply Hne. unfold src. destruct src'; simpl in *; f_equal; lia.
    + exists s'. split; [done|]. destruct HP' as [Hwf HP']. split; [done|]. intros src Hsrc Hlt. apply HP'; [done|].
      rewrite seqZ_length. destruct (decide (src.1 < Z.of_nat k)); [by left|]. right. destruct Hsrc. lia.
  - rewrite E2. simpl. exists H. split; [done|]. intros src c Hsrc Hc. destruct HP as [_ HP].
    destruct (HP src Hsrc) as (row&Hrow&Hv).
    { rewrite seqZ_length. destruct Hsrc. left. lia. }
    destruct (Hv c Hc) as (v&?&?). eauto.
Qed.
End square.

(** Wider than high: the rows of the state space are overrun. *)
Lemma create_wide w h : 0 <= h < w -> Create2DStateSpace w h = UB.
Proof.
  intros Hwh. unfold Create2DStateSpace.
  rewrite (seqZ_cons 0 w) at 1 by lia. unfold ra_for at 1. fold (@ra_for Z (gmap (Z * Z) st2)). cbv zeta.
  assert (forall n k (m : gmap (Z * Z) st2), (n = Z.to_nat (w - k)) -> 0 <= k -> k <= h -> ra_for (seqZ k (w - k)) (fun y m =>
      if h <=? y then UB else Ok (<[(0, y) := mkSt2 INFINITECOST 0 (Some (u16 0, u16 y))]> m)) m = @UB unit _) as G.
  { induction n as [|n IH]; intros k m Hn Hk Hkh; [lia|].
    rewrite seqZ_cons by lia. unfold ra_for. fold (@ra_for Z (gmap (Z * Z) st2)).
    destruct (Z.leb_spec h k); [done|]. simpl.
    replace (Z.pred (w - k)) with (w - Z.succ k) by lia. apply IH; lia. }
  specialize (G _ 0 (foldl (fun m y => <[(0, y) := mkSt2 0 0 None]> m) ∅ (seqZ 0 h)) eq_refl ltac:(lia) ltac:(lia)).
  rewrite Z.sub_0_r in G. rewrite G. done.
Qed.
