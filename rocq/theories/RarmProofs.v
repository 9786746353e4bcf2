(** The 2D search of the robot-arm environment. *)
From Coq Require Import ZifyBool ZifyNat.
From Verif Require Import Base BfsSpec RarmSpec BresModel RarmModel.
Local Open Scope Z_scope.

Lemma ra_for_inv {I St} (P : nat -> St -> Prop) (is : list I) (body : I -> St -> outcome unit St) s :
  P 0%nat s ->
  (forall k i s, is !! k = Some i -> P k s -> exists s', body i s = Ok s' /\ P (S k) s') ->
  exists s', ra_for is body s = Ok s' /\ P (length is) s'.
Proof.
  revert P s. induction is as [|i is IH]; intros P s H0 Hs; simpl; [eauto|].
  destruct (Hs 0%nat i s eq_refl H0) as (s1&E1&P1). rewrite E1. simpl.
  apply (IH (fun k => P (S k))); [done|]. intros k j s2 Hk HP. apply (Hs (S k) j s2 Hk HP).
Qed.

#[global] Arguments ra_for : simpl never.
Section search.
Context (w h : Z) (grid : gmap (Z * Z) Z) (src : Z * Z).
Context (Hw : 0 < w) (Hh : 0 < h) (Hsz : w * h < INFINITECOST).
Context (Hgrid : full_map w h grid) (Hsrc : in_map w h src).
Notation inm := (in_map w h).
Notation fr := (free w h grid).
Notation wk := (walk fr adj8 (eq src)).

Definition ind (c : Z * Z) : Z := XYTO2DIND w c.1 c.2.
Lemma ind_range c : inm c -> 0 <= ind c < w * h.
Proof. unfold ind, XYTO2DIND. intros [? ?]. nia. Qed.
Lemma ind_inj c d : inm c -> inm d -> ind c = ind d -> c = d.
Proof.
  destruct c as [x y], d as [x' y']. unfold ind, XYTO2DIND. intros [Hx Hy] [Hx' Hy']. simpl in *. intros E.
  assert (y = y') as -> by nia. f_equal. lia.
Qed.
Definition allcells : list (Z * Z) := x ← seqZ 0 w; (fun y => (x, y)) <$> seqZ 0 h.
Lemma allcells_in c : c ∈ allcells <-> inm c.
Proof.
  unfold allcells, in_map. rewrite elem_of_list_bind. split.
  - intros (x&(y&->&Hy%elem_of_seqZ)%elem_of_list_fmap&Hx%elem_of_seqZ). simpl. lia.
  - intros [Hx Hy]. exists c.1. split; [|apply elem_of_seqZ; lia]. apply elem_of_list_fmap.
    exists c.2. split; [by destruct c|apply elem_of_seqZ; lia].
Qed.
Lemma allcells_len : length allcells = Z.to_nat (w * h).
Proof.
  assert (forall l : list Z, length (x ← l; (fun y => (x, y)) <$> seqZ 0 h) = (length l * Z.to_nat h)%nat) as G.
  { induction l as [|x l IH]; [done|]. cbn [mbind list_bind]. rewrite app_length, fmap_length, seqZ_length. 
    change (list_bind _ _ (fun x0 : Z => (fun y : Z => (x0, y)) <$> seqZ 0 h) l) with (x ← l; (fun y => (x, y)) <$> seqZ 0 h).
    simpl. lia. }
  unfold allcells. rewrite G, seqZ_length. lia.
Qed.
Lemma closed_bound (cl : gset (Z * Z)) : (forall c, c ∈ cl -> inm c) -> Z.of_nat (size cl) <= w * h.
Proof.
  intros Hc. assert (cl ⊆ list_to_set allcells) as Hs.
  { intros c Hin. apply elem_of_list_to_set, allcells_in. auto. }
  apply subseteq_size in Hs.
  assert (size (list_to_set allcells : gset (Z * Z)) <= length allcells)%nat.
  { generalize allcells. induction l as [|x l IH].
    - rewrite list_to_set_nil, size_empty. done.
    - rewrite list_to_set_cons, size_union_alt, size_singleton. cbn [length].
      assert (size (list_to_set l ∖ {[x]} : gset (Z * Z)) <= size (list_to_set l : gset (Z * Z)))%nat; [|lia].
      apply subseteq_size. set_solver. }
  rewrite allcells_len in H. lia.
Qed.

Definition fin (m : gmap (Z * Z) st2) (c : Z * Z) (g : Z) : Prop :=
  exists k, m !! c = Some (mkSt2 g k (Some c)) /\ g <> INFINITECOST.

(** Common part: [cl] the closed cells, all finite g are at most [k + 1]. *)
Record ginv (s : srch) (cl : gset (Z * Z)) (k : Z) (q : list (Z * Z)) : Prop := {
  gi_dom : forall c, inm c -> exists g, q_ss s !! c = Some (mkSt2 g (if decide (c ∈ cl) then 1 else 0) (Some c));
  gi_cl : forall c, c ∈ cl -> inm c /\ exists g, fin (q_ss s) c g;
  gi_q : forall c, c ∈ q <-> c ∉ cl /\ inm c /\ exists g, fin (q_ss s) c g;
  gi_nd : NoDup q;
  gi_le : forall c g, inm c -> fin (q_ss s) c g -> 0 <= g <= k + 1 /\ g <= Z.of_nat (size cl);
  gi_wk : forall c g, inm c -> fin (q_ss s) c g -> wk (Z.to_nat g) c;
  gi_src : fin (q_ss s) src 0;
  gi_heur : forall c, inm c -> exists v, q_heur s !! ind c = Some v /\
     if decide (c ∈ cl) then fin (q_ss s) c v else v = INFINITECOST;
  gi_k : 0 <= k
}.
Definition nbr_ok (s : srch) (c : Z * Z) : Prop :=
  forall g x, fin (q_ss s) c g -> adj8 c x -> fr x -> exists g', fin (q_ss s) x g' /\ g' <= g + 1.

Lemma fin_fun m c g g' : fin m c g -> fin m c g' -> g = g'.
Proof. intros (k&E&_) (k'&E'&_). congruence. Qed.

Lemma rdirs_adj d : d ∈ rdirs -> forall c : Z * Z, adj8 c (c.1 + d.1, c.2 + d.2).
Proof. unfold rdirs, adj8. intros Hd c. simpl. repeat (apply elem_of_cons in Hd as [-> |Hd]; [simpl; lia|]). by apply elem_of_nil in Hd. Qed.
Lemma adj_rdirs c x : adj8 c x -> exists d, d ∈ rdirs /\ x = (c.1 + d.1, c.2 + d.2).
Proof.
  unfold adj8. intros Ha. exists (x.1 - c.1, x.2 - c.2). split; [|destruct x; simpl; f_equal; lia].
  assert (x.1 - c.1 = -1 \/ x.1 - c.1 = 0 \/ x.1 - c.1 = 1) as Hx by lia.
  assert (x.2 - c.2 = -1 \/ x.2 - c.2 = 0 \/ x.2 - c.2 = 1) as Hy by lia.
  unfold rdirs. destruct Hx as [E'|[E'|E']], Hy as [E|[E|E]]; rewrite E, E'; try (exfalso; lia); set_solver.
Qed.

(** The inner loop while cell [e] (g-value [k], just closed) is expanded; [ds] directions done. *)
Record rinv (s0 : srch) (e : Z * Z) (k : Z) (cl : gset (Z * Z)) (ds : list (Z * Z)) (s : srch) : Prop := {
  ri_g : ginv s cl k (q_queue s);
  ri_old : forall c g, fin (q_ss s0) c g -> fin (q_ss s) c g;
  ri_new : exists new, q_queue s = q_queue s0 ++ new /\ forall c, c ∈ new -> fin (q_ss s) c (k + 1);
  ri_done : forall d, d ∈ ds -> fr (e.1 + d.1, e.2 + d.2) ->
     exists g', fin (q_ss s) (e.1 + d.1, e.2 + d.2) g' /\ g' <= k + 1
}.

Lemma relax_step s0 e k cl ds d s : d ∈ rdirs -> e ∈ cl -> fin (q_ss s0) e k -> k + 1 <= Z.of_nat (size cl) ->
  rinv s0 e k cl ds s ->
  exists s', ra_relax w h grid k e d s = Ok s' /\ rinv s0 e k cl (ds ++ [d]) s'.
Proof.
  intros Hd He Hfe Hkcl [G O N D]. pose proof G as [G1 G2 G3 G4 G5 G6 G7 G8 G9].
  set (x := (e.1 + d.1, e.2 + d.2)) in *.
  unfold ra_relax. fold x.
  destruct ((e.1 + d.1 <? 0) || (w <=? e.1 + d.1) || (e.2 + d.2 <? 0) || (h <=? e.2 + d.2)) eqn:Eb.
  { exists s. split; [done|]. constructor; auto. intros d' [Hd'|Hd'%elem_of_list_singleton]%elem_of_app; [auto|].
    subst d'. intros [Hin _]. exfalso. unfold in_map in Hin. simpl in Hin. lia. }
  assert (inm x) as Hx by (unfold in_map, x; simpl; lia).
  destruct (Hgrid x Hx) as [o Ho]. fold x. rewrite Ho.
  destruct (Z.eqb_spec o 1) as [-> |Hne].
  { exists s. split; [done|]. constructor; auto. intros d' [Hd'|Hd'%elem_of_list_singleton]%elem_of_app; [auto|].
    subst d'. intros [_ (o'&Ho'&?)]. fold x in Ho'. congruence. }
  destruct (G1 x Hx) as [g Eg]. rewrite Eg. simpl.
  destruct (Z.eqb_spec g INFINITECOST) as [-> |Hg]; simpl.
  - assert (x ∉ cl) as Hxcl.
    { intros Hc. destruct (G2 x Hc) as (_&g&(k'&E'&Hg)). rewrite Eg in E'. injection E' as <-. done. }
    rewrite decide_False in Eg |- * by done. simpl.
    eexists. split; [done|].
    assert (Hfx : fin (<[x:=mkSt2 (k + 1) 0 (Some x)]> (q_ss s)) x (k + 1)).
    { exists 0. rewrite lookup_insert. split; [done|]. pose proof (closed_bound cl (fun c Hc => proj1 (G2 c Hc))). lia. }
    assert (Hfo : forall c g, c <> x -> fin (<[x:=mkSt2 (k + 1) 0 (Some x)]> (q_ss s)) c g <-> fin (q_ss s) c g).
    { intros c g' Hc. unfold fin. by rewrite lookup_insert_ne. }
    assert (Hnx : forall g, ~ fin (q_ss s) x g).
    { intros g' (k'&E'&?). rewrite Eg in E'. injection E' as <-. done. }
    assert (Hmono : forall c g, fin (q_ss s) c g -> fin (<[x:=mkSt2 (k + 1) 0 (Some x)]> (q_ss s)) c g).
    { intros c g' Hc. destruct (decide (c = x)) as [-> |]; [by apply Hnx in Hc|by apply Hfo]. }
    constructor; simpl.
    + constructor; simpl; auto.
      * intros c Hc. destruct (decide (c = x)) as [-> |Hcx].
        -- rewrite lookup_insert. rewrite decide_False by done. eauto.
        -- rewrite lookup_insert_ne by done. auto.
      * intros c Hc. destruct (G2 c Hc) as (?&g'&?). split; [done|]. eauto.
      * intros c. rewrite elem_of_app, elem_of_list_singleton, G3. split.
        -- intros [(?&?&g'&?)| ->]; split_and!; eauto.
        -- intros (?&?&g'&Hf'). destruct (decide (c = x)) as [-> |Hcx]; [by right|].
           left. split_and!; auto. exists g'. by apply Hfo.
      * apply NoDup_app. split_and!; [done| |apply NoDup_singleton].
        intros c Hc ->%elem_of_list_singleton. apply G3 in Hc as (_&_&g'&Hf'). by apply Hnx in Hf'.
      * intros c g' Hc Hf'. destruct (decide (c = x)) as [-> |Hcx].
        -- rewrite (fin_fun _ _ _ _ Hf' Hfx). lia.
        -- apply Hfo in Hf'; [|done]. eauto.
      * intros c g' Hc Hf'. destruct (decide (c = x)) as [-> |Hcx].
        -- rewrite (fin_fun _ _ _ _ Hf' Hfx). replace (Z.to_nat (k + 1)) with (S (Z.to_nat k)) by lia.
           apply (walk_step _ _ _ _ e).
           ++ apply G6; [by apply G2|auto].
           ++ by apply rdirs_adj.
           ++ split; [done|]. eauto.
        -- apply Hfo in Hf'; [|done]. eauto.
      * intros c Hc. destruct (G8 c Hc) as (v&Hv&Hi). exists v. split; [done|]. destruct (decide (c ∈ cl)); [|done]. auto.
    + intros c g' Hf'. auto.
    + destruct N as (new&->&Hn). exists (new ++ [x]). split; [by rewrite app_assoc|].
      intros c [Hc|Hc%elem_of_list_singleton]%elem_of_app; [auto|by subst c].
    + intros d' [Hd'|Hd'%elem_of_list_singleton]%elem_of_app Hfr.
      * destruct (D d' Hd' Hfr) as (g'&?&?). eauto.
      * subst d'. fold x. exists (k + 1). split; [done|lia].
  - assert (Hfx : fin (q_ss s) x g) by (eexists; eauto).
    destruct (G5 x g Hx Hfx) as [Hle _].
    destruct (Z.ltb_spec (k + 1) g); [lia|].
    rewrite andb_false_r. exists s. split; [done|]. constructor; auto.
    intros d' [Hd'|Hd'%elem_of_list_singleton]%elem_of_app Hfr; [auto|]. subst d'. fold x. exists g. split; [done|lia].
Qed.

Lemma relax_all_dirs s0 e k cl : e ∈ cl -> fin (q_ss s0) e k -> k + 1 <= Z.of_nat (size cl) ->
  ginv s0 cl k (q_queue s0) ->
  exists s', ra_for rdirs (ra_relax w h grid k e) s0 = Ok s' /\ rinv s0 e k cl rdirs s'.
Proof.
  intros He Hf Hk G.
  destruct (ra_for_inv (fun j s => rinv s0 e k cl (take j rdirs) s) rdirs (ra_relax w h grid k e) s0) as (s'&E&R).
  - constructor; auto. { exists []. split; [by rewrite app_nil_r|set_solver]. } set_solver.
  - intros j d s Hj R. rewrite (take_S_r _ _ d) by done. apply relax_step; auto. by eapply elem_of_list_lookup_2.
  - exists s'. by rewrite firstn_all in R.
Qed.

(** Between two iterations of the main loop. *)
Definition minv (s : srch) (cl : gset (Z * Z)) : Prop :=
  exists k q1 q2, q_queue s = q1 ++ q2 /\ ginv s cl k (q_queue s) /\
    (forall c, c ∈ q1 -> fin (q_ss s) c k) /\ (forall c, c ∈ q2 -> fin (q_ss s) c (k + 1)) /\
    (forall c, c ∈ cl -> nbr_ok s c).

Lemma minv_head s cl p q : minv s cl -> q_queue s = p :: q ->
  exists k q1 q2, q = q1 ++ q2 /\ fin (q_ss s) p k /\ ginv s cl k (p :: q) /\
    (forall c, c ∈ q1 -> fin (q_ss s) c k) /\ (forall c, c ∈ q2 -> fin (q_ss s) c (k + 1)) /\
    (forall c, c ∈ cl -> nbr_ok s c).
Proof.
  intros (k&q1&q2&Eq&G&H1&H2&Hn) E. rewrite E in *. destruct q1 as [|p' q1].
  - simpl in Eq. subst q2. exists (k + 1), q, []. rewrite app_nil_r. split_and!; auto.
    + apply H2. set_solver.
    + destruct G. constructor; auto; [|lia]. intros c g Hc Hf. destruct (gi_le0 c g Hc Hf). lia.
    + intros c Hc. apply H2. set_solver.
    + set_solver.
  - injection Eq as <- ->. exists k, q1, q2. split_and!; auto.
    + apply H1. set_solver.
    + intros c Hc. apply H1. set_solver.
Qed.

Lemma bfs_run : forall fuel s cl, minv s cl -> Z.of_nat fuel + Z.of_nat (size cl) > w * h ->
  exists s' cl', ra_bfs fuel w h grid s = Ok s' /\ minv s' cl' /\ q_queue s' = [].
Proof.
  induction fuel as [|fuel IH]; intros s cl M Hfuel.
  { exfalso. destruct M as (k&q1&q2&_&G&_). pose proof (closed_bound cl (fun c Hc => proj1 (gi_cl _ _ _ _ G c Hc))). lia. }
  cbn [ra_bfs]. destruct (q_queue s) as [|p q] eqn:Eq.
  { exists s, cl. auto. }
  destruct (minv_head s cl p q M Eq) as (k&q1&q2&->&Hfp&G&Hq1&Hq2&Hnb).
  pose proof G as [G1 G2 G3 G4 G5 G6 G7 G8 G9].
  destruct (proj1 (G3 p) ltac:(set_solver)) as (Hpcl&Hp&_).
  destruct (G1 p Hp) as [g Eg]. rewrite Eg. rewrite decide_False in Eg |- * by done. simpl.
  assert (g = k) as ->. { destruct Hfp as (k'&E'&_). congruence. }
  pose proof (ind_range p Hp) as Hir. fold (ind p).
  destruct (Z.ltb_spec (ind p) 0); [lia|]. destruct (Z.leb_spec (w * h) (ind p)); [lia|]. simpl.
  set (s0 := mkSrch (<[p:=mkSt2 k 1 (Some p)]> (q_ss s)) (<[ind p:=k]> (q_heur s)) (q1 ++ q2)).
  assert (Hk : k <> INFINITECOST) by (by destruct Hfp as (?&?&?)).
  assert (Hff : forall c g, fin (q_ss s0) c g <-> fin (q_ss s) c g).
  { intros c g. unfold s0, fin. simpl. destruct (decide (c = p)) as [-> |]; [rewrite lookup_insert|by rewrite lookup_insert_ne].
    rewrite Eg. split; intros (k'&E'&?); injection E' as <-; eauto. }
  assert (Hsz' : size (cl ∪ {[p]}) = S (size cl)).
  { rewrite size_union by set_solver. rewrite size_singleton. lia. }
  destruct (G5 p k Hp Hfp) as [_ Hkc].
  assert (G0 : ginv s0 (cl ∪ {[p]}) k (q_queue s0)).
  { constructor; simpl; auto.
    - intros c Hc. destruct (decide (c = p)) as [-> |Hcp].
      + rewrite lookup_insert, decide_True by set_solver. eauto.
      + rewrite lookup_insert_ne by done. destruct (G1 c Hc) as [g E]. exists g. rewrite E. do 2 f_equal.
        repeat destruct (decide _); set_solver.
    - intros c [Hc| ->%elem_of_singleton]%elem_of_union.
      + destruct (G2 c Hc) as (?&g&?). split; [done|]. exists g. by apply Hff.
      + split; [done|]. exists k. by apply Hff.
    - intros c. pose proof (G3 c) as Hc3. apply NoDup_cons in G4 as [Hpq _]. split.
      + intros Hc. destruct (proj1 Hc3 ltac:(set_solver)) as (?&?&g&?). split_and!; [set_solver|done|]. exists g. by apply Hff.
      + intros (Hc&?&g&Hf'). apply Hff in Hf'. assert (c ∈ p :: q1 ++ q2) as Hin by (apply Hc3; split_and!; [set_solver|done|eauto]).
        set_solver.
    - by apply NoDup_cons in G4 as [_ ?].
    - intros c g Hc Hf'. apply Hff in Hf'. destruct (G5 c g Hc Hf'). lia.
    - intros c g Hc Hf'. apply Hff in Hf'. eauto.
    - by apply Hff.
    - intros c Hc. destruct (decide (c = p)) as [-> |Hcp].
      + rewrite lookup_insert. exists k. split; [done|]. rewrite decide_True by set_solver. by apply Hff.
      + rewrite lookup_insert_ne. 2:{ intros E. apply Hcp. symmetry. by apply ind_inj. }
        destruct (G8 c Hc) as (v&Hv&Hi). exists v. split; [done|]. 
        destruct (decide (c ∈ cl)) as [Hin|Hin].
        * rewrite decide_True by set_solver. by apply Hff.
        * rewrite decide_False by set_solver. done. }
  destruct (relax_all_dirs s0 p k (cl ∪ {[p]})) as (s'&E'&R); [set_solver|by apply Hff|lia|done|].
  fold s0. rewrite E'. simpl. destruct R as [RG RO (new&RN&RN2) RD].
  apply (IH s' (cl ∪ {[p]})); [|lia].
  exists k, q1, (q2 ++ new). simpl in RN. split_and!; auto.
  - by rewrite RN, app_assoc.
  - intros c Hc. apply RO, Hff. auto.
  - intros c [Hc|Hc]%elem_of_app; [|auto]. apply RO, Hff. auto.
  - intros c Hc g x Hf' Ha Hx. apply elem_of_union in Hc as [Hc| ->%elem_of_singleton].
    + destruct (G2 c Hc) as (_&g0&Hf0). pose proof (RO c g0 (proj2 (Hff _ _) Hf0)) as Hf1.
      assert (g0 = g) as -> by (eapply fin_fun; eauto).
      destruct (Hnb c Hc g x Hf0 Ha Hx) as (g'&Hg'&?). exists g'. split; [|done]. apply RO. by apply Hff.
    + assert (g = k) as ->. { eapply fin_fun; [exact Hf'|]. apply RO. by apply Hff. }
      destruct (adj_rdirs _ _ Ha) as (d&Hd&->). by apply RD.
Qed.

Lemma minv_end s cl : minv s cl -> q_queue s = [] ->
  forall c, inm c -> exists v, q_heur s !! ind c = Some v /\ shortest w h grid src c v.
Proof.
  intros (k&q1&q2&Eq&G&_&_&Hn) E c Hc. pose proof G as [G1 G2 G3 G4 G5 G6 G7 G8 G9].
  rewrite E in G3.
  assert (Hall : forall c g, inm c -> fin (q_ss s) c g -> c ∈ cl).
  { intros c' g Hc' Hf. destruct (decide (c' ∈ cl)) as [|Hn']; [done|]. exfalso.
    assert (c' ∈ []) as Hin; [|by apply elem_of_nil in Hin]. apply G3. eauto. }
  assert (Hreach : forall n c, wk n c -> exists g, inm c /\ fin (q_ss s) c g /\ g <= Z.of_nat n).
  { induction 1 as [c' <-|n c' x Hwk (g&Hi&Hf&Hle) Ha Hfr].
    - exists 0. split_and!; [done|done|lia].
    - destruct (Hn c' (Hall _ _ Hi Hf) g x Hf Ha Hfr) as (g'&Hf'&?). exists g'. split_and!; [apply Hfr|done|lia]. }
  destruct (G8 c Hc) as (v&Hv&Hi). exists v. split; [done|].
  destruct (decide (c ∈ cl)) as [Hin|Hin].
  - right. destruct (G5 c v Hc Hi) as [? Hle]. pose proof (closed_bound cl (fun c Hc => proj1 (G2 c Hc))).
    change 1000000000 with INFINITECOST. assert (v <> INFINITECOST) by (by destruct Hi as (?&?&?)).
    split_and!; [lia|lia|by apply G6|].
    intros n Hwk. destruct (Hreach n c Hwk) as (g&_&Hf&?). rewrite (fin_fun _ _ _ _ Hi Hf). done.
  - left. split; [done|]. intros n Hwk. destruct (Hreach n c Hwk) as (g&_&Hf&?). apply Hin. by eapply Hall.
Qed.

(** State space in which every cell knows its coordinates. *)
Definition wfss (m : gmap (Z * Z) st2) : Prop := forall c, inm c -> exists g k, m !! c = Some (mkSt2 g k (Some c)).

Lemma reset_ok ss : wfss ss -> exists m hr, ra_reset w h (ss, ∅) = Ok (m, hr) /\
  (forall c, inm c -> m !! c = Some (mkSt2 INFINITECOST 0 (Some c)) /\ hr !! ind c = Some INFINITECOST).
Proof.
  intros Hwf. unfold ra_reset.
  set (P := fun (X Y : Z) (s : gmap (Z * Z) st2 * gmap Z Z) => wfss s.1 /\
    forall c, inm c -> c.1 < X \/ (c.1 = X /\ c.2 < Y) ->
       s.1 !! c = Some (mkSt2 INFINITECOST 0 (Some c)) /\ s.2 !! ind c = Some INFINITECOST).
  destruct (ra_for_inv (fun k s => P (Z.of_nat k) 0 s) (seqZ 0 w) (fun x => ra_for (seqZ 0 h) (fun y (s : gmap (Z * Z) st2 * gmap Z Z) =>
    if (XYTO2DIND w x y <? 0) || (w * h <=? XYTO2DIND w x y) then UB
    else match s.1 !! (x, y) with
         | None => UB
         | Some c => Ok (<[(x, y) := mkSt2 INFINITECOST 0 (s_xy c)]> s.1, <[XYTO2DIND w x y := INFINITECOST]> s.2)
         end)) (ss, ∅)) as (s'&E&HP).
  - split; [done|]. intros c [? ?]. simpl. lia.
  - intros k x s Hx HP. apply lookup_seqZ in Hx as [-> Hk].
    destruct (ra_for_inv (fun j s => P (Z.of_nat k) (Z.of_nat j) s) (seqZ 0 h) (fun y (s : gmap (Z * Z) st2 * gmap Z Z) =>
      if (XYTO2DIND w (0 + Z.of_nat k) y <? 0) || (w * h <=? XYTO2DIND w (0 + Z.of_nat k) y) then UB
      else match s.1 !! (0 + Z.of_nat k, y) with
         | None => UB
         | Some c => Ok (<[(0 + Z.of_nat k, y) := mkSt2 INFINITECOST 0 (s_xy c)]> s.1, <[XYTO2DIND w (0 + Z.of_nat k) y := INFINITECOST]> s.2)
         end) s) as (s'&E'&HP').
    + exact HP.
    + intros j y [m hr] Hy [Hwf2 HP2]. apply lookup_seqZ in Hy as [-> Hj].
      set (c := (0 + Z.of_nat k, 0 + Z.of_nat j)).
      assert (inm c) as Hc by (unfold in_map, c; simpl; lia).
      pose proof (ind_range c Hc) as Hr. unfold ind in Hr. fold c. change (XYTO2DIND w (0 + Z.of_nat k) (0 + Z.of_nat j)) with (XYTO2DIND w c.1 c.2).
      destruct (Z.ltb_spec (XYTO2DIND w c.1 c.2) 0); [lia|]. destruct (Z.leb_spec (w * h) (XYTO2DIND w c.1 c.2)); [lia|]. simpl.
      destruct (Hwf2 c Hc) as (g&k'&Eg). simpl in Eg. rewrite Eg. simpl. eexists. split; [done|]. split; simpl.
      * intros d Hd. destruct (decide (d = c)) as [-> |]; [rewrite lookup_insert; eauto|]. rewrite lookup_insert_ne by done. by apply Hwf2.
      * intros d Hd Hlt. destruct (decide (d = c)) as [-> |Hdc].
        -- by rewrite !lookup_insert.
        -- assert (d.1 < Z.of_nat k \/ d.1 = Z.of_nat k /\ d.2 < Z.of_nat j) as Hlt'.
           { destruct Hlt as [?|[? ?]]; [by left|]. right. split; [done|].
             assert (d.2 <> Z.of_nat j); [|lia]. intros ?. apply Hdc. unfold c. destruct d; simpl in *. f_equal; lia. }
           destruct (HP2 d Hd Hlt') as [A B]. simpl in A, B. fold (ind c).
           rewrite lookup_insert_ne by done. split; [done|]. rewrite lookup_insert_ne; [done|].
           intros E. apply Hdc. symmetry. by apply ind_inj.
    + exists s'. split; [done|]. destruct HP' as [Hwf' HP']. split; [done|]. intros c Hc Hlt. apply HP'; [done|].
      rewrite seqZ_length. destruct Hc as [? ?]. destruct (decide (c.1 < Z.of_nat k)); [by left|right; lia].
  - destruct s' as [m hr]. exists m, hr. split; [done|]. destruct HP as [_ HP]. intros c Hc.
    apply (HP c Hc). rewrite seqZ_length. destruct Hc. left. lia.
Qed.

Lemma search_ok ss : wfss ss -> exists m hr, Search2DwithQueue w h grid src.1 src.2 ss = Ok (m, hr) /\ wfss m /\
  forall c, inm c -> exists v, hr !! ind c = Some v /\ shortest w h grid src c v.
Proof.
  intros Hwf. destruct (reset_ok ss Hwf) as (m&hr&E&Hm). unfold Search2DwithQueue. rewrite E. simpl.
  replace (src.1, src.2) with src by (by destruct src). rewrite (proj1 (Hm src Hsrc)). simpl.
  set (s0 := mkSrch (<[src:=mkSt2 0 0 (Some src)]> m) hr [src]).
  assert (Hf0 : forall c g, inm c -> fin (q_ss s0) c g <-> c = src /\ g = 0).
  { intros c g Hc. unfold fin, s0. simpl. destruct (decide (c = src)) as [-> |Hcs].
    - rewrite lookup_insert. split; [intros (k&[= <- <-]&_); done|intros [_ ->]; exists 0; done].
    - rewrite lookup_insert_ne by done. rewrite (proj1 (Hm c Hc)). split; [|by intros [-> _]].
      intros (k&[= <- <-]&?). done. }
  assert (minv s0 ∅) as M.
  { exists 0, [src], []. split_and!; [done| | |set_solver|set_solver].
    - constructor; simpl; auto.
      + intros c Hc. destruct (decide (c = src)) as [-> |Hcs].
        * rewrite lookup_insert. eauto.
        * rewrite lookup_insert_ne by done. rewrite (proj1 (Hm c Hc)). eauto.
      + set_solver.
      + intros c. rewrite elem_of_list_singleton. split.
        * intros ->. split_and!; [set_solver|done|]. exists 0. by apply Hf0.
        * intros (_&Hc&g&Hf). apply Hf0 in Hf; [|done]. apply Hf.
      + apply NoDup_singleton.
      + intros c g Hc Hf. apply Hf0 in Hf as [-> ->]; [|done]. lia.
      + intros c g Hc Hf. apply Hf0 in Hf as [-> ->]; [|done]. by constructor.
      + by apply Hf0.
      + intros c Hc. exists INFINITECOST. split; [by apply Hm|]. by rewrite decide_False by set_solver.
      + lia.
    - intros c ->%elem_of_list_singleton. by apply Hf0. }
  destruct (bfs_run (Z.to_nat (w * h) + 1) s0 ∅ M) as (s'&cl'&E'&M'&Hq); [lia|].
  fold s0. rewrite E'. simpl. exists (q_ss s'), (q_heur s'). split; [done|]. split.
  - intros c Hc. destruct M' as (k&q1&q2&_&G&_). destruct (gi_dom _ _ _ _ G c Hc) as [g Eg]. eauto.
  - by eapply minv_end.
Qed.
End search.
