From Coq Require Import ZifyBool.
From Verif Require Import Base DistModel HeapModel HeapProofs GridModel GridSpec.
Ltac Zify.zify_post_hook ::= idtac.
Local Open Scope Z_scope.

(** ** Block costs *)
Definition gwf (s : gsearch) : Prop :=
  1 <= gsDown s /\ 1 <= gsW s /\ 1 <= gsH s /\ gsW s * gsDown s <= gsMapW s /\ gsH s * gsDown s <= gsMapH s /\ gsW s * gsH s < HEAPSIZE.

Lemma blockcost_unique grid n c m m' : blockcost grid n c m -> blockcost grid n c m' -> m = m'.
Proof. intros [(dx&dy&Hx&Hy&E) H] [(dx'&dy'&Hx'&Hy'&E') H']. specialize (H dx' dy' Hx' Hy'). specialize (H' dx dy Hx Hy). lia. Qed.

Lemma maxover_ok grid s l : forall m, (forall c, c ∈ l -> 0 <= c.1 < gsMapW s /\ 0 <= c.2 < gsMapH s) ->
  exists r, maxover grid s l m = Ok r /\ m <= r /\ (forall c, c ∈ l -> grid c.1 c.2 <= r) /\ (r = m \/ exists c, c ∈ l /\ grid c.1 c.2 = r).
Proof.
  induction l as [|c l IH]; intros m H; cbn [maxover].
  - exists m. split_and!; [done|lia| |by left]. intros c Hc. by apply elem_of_nil in Hc.
  - unfold rdgrid. destruct (H c ltac:(left)) as [Hx Hy]. replace (_ && _ && _ && _) with true by lia. cbn [obind].
    destruct (IH (Z.max m (grid c.1 c.2))) as (r&E&Hm&Hl&Hr). { intros c' Hc'. apply H. by right. }
    exists r. split_and!; [done|lia| |].
    + intros c' Hc'. apply elem_of_cons in Hc' as [->|Hc']; [lia|auto].
    + destruct Hr as [Hr|(c'&Hc'&E')]; [|right; exists c'; split; [by right|done]]. destruct (decide (grid c.1 c.2 <= m)); [left; lia|right]. exists c. split; [left|lia].
Qed.
Lemma getCost_ok grid s x y : gwf s -> inblocks (gsW s) (gsH s) (x, y) -> exists m, getCost grid s x y = Ok m /\ blockcost grid (gsDown s) (x, y) m.
Proof.
  intros (Hn&HW&HH&HMW&HMH&_) [Hx Hy]. cbn [fst snd] in *. unfold getCost. set (n := gsDown s) in *.
  assert (forall dx dy, 0 <= dx < n -> 0 <= dy < n -> 0 <= x * n + dx < gsMapW s /\ 0 <= y * n + dy < gsMapH s) as Hin by (intros; nia).
  unfold rdgrid at 1. destruct (Hin 0 0 ltac:(lia) ltac:(lia)). replace (_ && _ && _ && _) with true by lia. cbn [obind].
  assert (forall c, c ∈ flat_map (fun dy => map (fun dx => (x * n + dx, y * n + dy)) (seqZ 0 n)) (seqZ 0 n) <-> exists dx dy, 0 <= dx < n /\ 0 <= dy < n /\ c = (x * n + dx, y * n + dy)) as Hel.
  { intros c. rewrite elem_of_list_In, in_flat_map. split.
    - intros (dy&Hdy&Hc). apply in_map_iff in Hc as (dx&<-&Hdx). rewrite <- elem_of_list_In, elem_of_seqZ in Hdx, Hdy. exists dx, dy. split_and!; [lia|lia|lia|lia|done].
    - intros (dx&dy&Hdx&Hdy&->). exists dy. rewrite <- elem_of_list_In, elem_of_seqZ. split; [lia|]. apply in_map_iff. exists dx. split; [done|]. apply elem_of_list_In, elem_of_seqZ. lia. }
  edestruct maxover_ok as (r&E&Hm&Hl&Hr); [|rewrite E; exists r; split; [done|]].
  { intros c Hc. apply Hel in Hc as (dx&dy&Hdx&Hdy&->). cbn [fst snd]. auto. }
  split; cbn [fst snd].
  - destruct Hr as [->|(c&Hc&Hr)]; [exists 0, 0; split_and!; try lia; by rewrite !Z.add_0_r|]. apply Hel in Hc as (dx&dy&Hdx&Hdy&->). eauto.
  - intros dx dy Hdx Hdy. apply (Hl (x * n + dx, y * n + dy)). apply Hel. eauto.
Qed.

(** ** Directions and moves *)
Notation gdir := (Z * Z * option (Z * Z * (Z * Z)))%type.
Definition dcells (x y : Z) (d : gdir) : list (Z * Z) :=
  match d.2 with None => [(x, y); (x + d.1.1, y + d.1.2)] | Some (x0, y0, (x1, y1)) => [(x, y); (x + x0, y + y0); (x + x1, y + y1); (x + d.1.1, y + d.1.2)] end.
Definition dlen (dist : Z * Z * Z) (d : gdir) : Z :=
  if (d.1.1 =? 0) || (d.1.2 =? 0) then dist.1.1 else match d.2 with None => dist.1.2 | Some _ => dist.2 end.
Lemma move_eq (l1 l2 : Z * Z * Z -> Z) u v v' c1 c2 : move u v l1 c1 -> v = v' -> c1 = c2 -> l1 = l2 -> move u v' l2 c2.
Proof. by intros ? -> -> ->. Qed.
Lemma dir_move x y d : d ∈ gdirs -> exists len, move (x, y) (x + d.1.1, y + d.1.2) len (dcells x y d) /\ forall dist, len dist = dlen dist d.
Proof.
  intros Hd. rewrite elem_of_list_In in Hd. unfold gdirs in Hd.
  repeat (destruct Hd as [<-|Hd]; [unfold dcells, dlen; cbn [fst snd]; cbn [Z.eqb orb]; eexists; split; [
     first [ apply Straight; lia
           | apply Diagonal; lia
           | eapply move_eq; [eapply (LongX x y (x + 2) (y + 1) (x + 1)); lia|f_equal; lia|repeat f_equal; lia|reflexivity]
           | eapply move_eq; [eapply (LongY x y (x + 1) (y + 2) (y + 1)); lia|f_equal; lia|repeat f_equal; lia|reflexivity]
           | eapply move_eq; [eapply (LongX x y (x + 2) (y + -1) (x + 1)); lia|f_equal; lia|repeat f_equal; lia|reflexivity]
           | eapply move_eq; [eapply (LongY x y (x + -1) (y + 2) (y + 1)); lia|f_equal; lia|repeat f_equal; lia|reflexivity]
           | eapply move_eq; [eapply (LongX x y (x + -2) (y + 1) (x + -1)); lia|f_equal; lia|repeat f_equal; lia|reflexivity]
           | eapply move_eq; [eapply (LongY x y (x + 1) (y + -2) (y + -1)); lia|f_equal; lia|repeat f_equal; lia|reflexivity]
           | eapply move_eq; [eapply (LongX x y (x + -2) (y + -1) (x + -1)); lia|f_equal; lia|repeat f_equal; lia|reflexivity]
           | eapply move_eq; [eapply (LongY x y (x + -1) (y + -2) (y + -1)); lia|f_equal; lia|repeat f_equal; lia|reflexivity] ]
     |intros dist; reflexivity]|]). done.
Qed.

Lemma move_dir x y v len cells : move (x, y) v len cells -> exists d, d ∈ gdirs /\ v = (x + d.1.1, y + d.1.2) /\ (forall dist, len dist = dlen dist d) /\ forall t, t ∈ cells <-> t ∈ dcells x y d.
Proof.
  assert (forall d : gdir, Exists (eq d) gdirs -> d ∈ gdirs) as Hin by (intros d; rewrite Exists_exists; by intros (d'&Hd'&->)).
  intros Hm. inversion Hm; subst; clear Hm.
  - exists (x' - x, y' - y, None). cbn [fst snd]. assert (x' = x + 1 /\ y' = y \/ x' = x - 1 /\ y' = y \/ x' = x /\ y' = y + 1 \/ x' = x /\ y' = y - 1) as Hc by lia.
    split_and!; [|f_equal; lia|intros dist; unfold dlen; cbn [fst snd]; by replace (_ || _) with true by lia|intros t; unfold dcells; cbn [fst snd]; replace (x + (x' - x)) with x' by lia; by replace (y + (y' - y)) with y' by lia].
    apply Hin. unfold gdirs. repeat rewrite Exists_cons. destruct Hc as [[-> ->]|[[-> ->]|[[-> ->]|[-> ->]]]]; repeat (first [left; repeat f_equal; lia | right]).
  - exists (x' - x, y' - y, None). cbn [fst snd].
    split_and!; [|f_equal; lia|intros dist; unfold dlen; cbn [fst snd]; by replace (_ || _) with false by lia|intros t; unfold dcells; cbn [fst snd]; replace (x + (x' - x)) with x' by lia; by replace (y + (y' - y)) with y' by lia].
    assert ((x' = x + 1 \/ x' = x - 1) /\ (y' = y + 1 \/ y' = y - 1)) as [Hx Hy] by lia.
    apply Hin. unfold gdirs. repeat rewrite Exists_cons. destruct Hx as [-> | ->], Hy as [-> | ->]; repeat (first [left; repeat f_equal; lia | right]).
  - exists (x' - x, y' - y, Some (xm - x, 0, (xm - x, y' - y))). cbn [fst snd].
    split_and!; [|f_equal; lia|intros dist; unfold dlen; cbn [fst snd]; by replace (_ || _) with false by lia|intros t; unfold dcells; cbn [fst snd]; replace (x + (x' - x)) with x' by lia; replace (x + (xm - x)) with xm by lia; replace (y + 0) with y by lia; by replace (y + (y' - y)) with y' by lia].
    assert (x' = 2 * xm - x) as -> by lia. assert ((xm = x + 1 \/ xm = x - 1) /\ (y' = y + 1 \/ y' = y - 1)) as [Hx Hy] by lia.
    apply Hin. unfold gdirs. repeat rewrite Exists_cons. destruct Hx as [-> | ->], Hy as [-> | ->]; repeat (first [left; repeat f_equal; lia | right]).
  - exists (x' - x, y' - y, Some (0, ym - y, (x' - x, ym - y))). cbn [fst snd].
    split_and!; [|f_equal; lia|intros dist; unfold dlen; cbn [fst snd]; by replace (_ || _) with false by lia|intros t; unfold dcells; cbn [fst snd]; replace (x + (x' - x)) with x' by lia; replace (y + (ym - y)) with ym by lia; replace (x + 0) with x by lia; by replace (y + (y' - y)) with y' by lia].
    assert (y' = 2 * ym - y) as -> by lia. assert ((x' = x + 1 \/ x' = x - 1) /\ (ym = y + 1 \/ ym = y - 1)) as [Hx Hy] by lia.
    apply Hin. unfold gdirs. repeat rewrite Exists_cons. destruct Hx as [-> | ->], Hy as [-> | ->]; repeat (first [left; repeat f_equal; lia | right]).
Qed.

Lemma dcells_in w h x y d : d ∈ gdirs -> inblocks w h (x, y) -> inblocks w h (x + d.1.1, y + d.1.2) -> forall t, t ∈ dcells x y d -> inblocks w h t.
Proof.
  intros Hd Hu Hv t Ht. rewrite elem_of_list_In in Hd. unfold gdirs in Hd. unfold inblocks in *.
  repeat (destruct Hd as [<-|Hd]; [unfold dcells in Ht; cbn [fst snd] in Ht, Hu, Hv; rewrite !elem_of_cons, elem_of_nil in Ht; destruct_or? Ht; subst; cbn [fst snd]; try lia; done|]). done.
Qed.

Definition mapcost_of (grid : Z -> Z -> Z) (s : gsearch) (x y expcost : Z) (d : gdir) : gres Z :=
  do c <- getCost grid s (x + d.1.1) (y + d.1.2);
  match d.2 with
  | None => Ok (Z.max c expcost)
  | Some (x0, y0, (x1, y1)) =>
    do c0 <- getCost grid s (x + x0) (y + y0);
    do c1 <- getCost grid s (x + x1) (y + y1);
    Ok (Z.max (Z.max (Z.max c expcost) c0) c1)
  end.
Lemma mapcost_ok grid s x y expcost d : gwf s -> d ∈ gdirs -> inblocks (gsW s) (gsH s) (x, y) -> inblocks (gsW s) (gsH s) (x + d.1.1, y + d.1.2) ->
  getCost grid s x y = Ok expcost ->
  exists M, mapcost_of grid s x y expcost d = Ok M /\ (exists t, t ∈ dcells x y d /\ blockcost grid (gsDown s) t M) /\
    forall t k, t ∈ dcells x y d -> blockcost grid (gsDown s) t k -> k <= M.
Proof.
  intros Hwf Hd Hu Hv Eu. pose proof (dcells_in _ _ x y d Hd Hu Hv) as Hin.
  destruct (getCost_ok grid s x y Hwf Hu) as (m0&E0&H0). rewrite Eu in E0. injection E0 as ->.
  destruct (getCost_ok grid s _ _ Hwf Hv) as (m1&E1&H1). unfold mapcost_of. rewrite E1. cbn [obind].
  destruct d as [[dx dy] [[[x0 y0] [x1 y1]]|]]; unfold dcells in *; cbn [fst snd] in *.
  - destruct (getCost_ok grid s (x + x0) (y + y0) Hwf) as (m2&E2&H2). { apply Hin. set_solver. }
    destruct (getCost_ok grid s (x + x1) (y + y1) Hwf) as (m3&E3&H3). { apply Hin. set_solver. }
    rewrite E2. cbn [obind]. rewrite E3. cbn [obind]. eexists. split; [done|]. split.
    + destruct (decide (m0 <= m1)) as [h1|h1]; [destruct (decide (m1 <= m2)) as [h2|h2]|destruct (decide (m0 <= m2)) as [h2|h2]].
      * destruct (decide (m2 <= m3)); [exists (x + x1, y + y1)|exists (x + x0, y + y0)]; (split; [set_solver|]). { by replace (Z.max _ _) with m3 by lia. } { by replace (Z.max _ _) with m2 by lia. }
      * destruct (decide (m1 <= m3)); [exists (x + x1, y + y1)|exists (x + dx, y + dy)]; (split; [set_solver|]). { by replace (Z.max _ _) with m3 by lia. } { by replace (Z.max _ _) with m1 by lia. }
      * destruct (decide (m2 <= m3)); [exists (x + x1, y + y1)|exists (x + x0, y + y0)]; (split; [set_solver|]). { by replace (Z.max _ _) with m3 by lia. } { by replace (Z.max _ _) with m2 by lia. }
      * destruct (decide (m0 <= m3)); [exists (x + x1, y + y1)|exists (x, y)]; (split; [set_solver|]). { by replace (Z.max _ _) with m3 by lia. } { by replace (Z.max _ _) with m0 by lia. }
    + intros t k Ht Hk. rewrite !elem_of_cons, elem_of_nil in Ht. destruct_or? Ht; subst; try done;
      match goal with Ha : blockcost _ _ ?c ?a, Hb : blockcost _ _ ?c ?b |- _ => rewrite (blockcost_unique _ _ _ _ _ Hb Ha) end; lia.
  - eexists. split; [done|]. split.
    + destruct (decide (m0 <= m1)); [exists (x + dx, y + dy)|exists (x, y)]; (split; [set_solver|]). { by replace (Z.max _ _) with m1 by lia. } { by replace (Z.max _ _) with m0 by lia. }
    + intros t k Ht Hk. rewrite !elem_of_cons, elem_of_nil in Ht. destruct_or? Ht; subst; try done;
      match goal with Ha : blockcost _ _ ?c ?a, Hb : blockcost _ _ ?c ?b |- _ => rewrite (blockcost_unique _ _ _ _ _ Hb Ha) end; lia.
Qed.

Lemma edge_dir grid w h n obs dist x y v c : edge grid w h n obs dist (x, y) v c -> exists d M, d ∈ gdirs /\ v = (x + d.1.1, y + d.1.2) /\
  (exists t, t ∈ dcells x y d /\ blockcost grid n t M) /\ (forall t k, t ∈ dcells x y d -> blockcost grid n t k -> k <= M) /\ M < obs /\ c = (M + 1) * dlen dist d.
Proof.
  intros (Hu&Hv&len&cells&m&Hm&Ho&(t&Ht&Hb)&Hmax&->). apply move_dir in Hm as (d&Hd&->&Hlen&Hcells). exists d, m. split_and!; [done|done| | |done|by rewrite Hlen].
  - exists t. by rewrite <- Hcells.
  - intros t' k Ht'. apply Hmax. by rewrite Hcells.
Qed.
Lemma dir_edge grid w h n obs dist x y d M : d ∈ gdirs -> inblocks w h (x, y) -> inblocks w h (x + d.1.1, y + d.1.2) ->
  (exists t, t ∈ dcells x y d /\ blockcost grid n t M) -> (forall t k, t ∈ dcells x y d -> blockcost grid n t k -> k <= M) -> M < obs ->
  edge grid w h n obs dist (x, y) (x + d.1.1, y + d.1.2) ((M + 1) * dlen dist d).
Proof. intros Hd Hu Hv H1 H2 Ho. destruct (dir_move x y d Hd) as (len&Hm&Hl). split; [done|]. split; [done|]. exists len, (dcells x y d), M. by rewrite Hl. Qed.
Lemma dirmax_unique grid n x y d M M' : (exists t, t ∈ dcells x y d /\ blockcost grid n t M) -> (forall t k, t ∈ dcells x y d -> blockcost grid n t k -> k <= M) ->
  (exists t, t ∈ dcells x y d /\ blockcost grid n t M') -> (forall t k, t ∈ dcells x y d -> blockcost grid n t k -> k <= M') -> M = M'.
Proof. intros (t&Ht&H1) H2 (t'&Ht'&H3) H4. specialize (H2 _ _ Ht' H3). specialize (H4 _ _ Ht H1). lia. Qed.
