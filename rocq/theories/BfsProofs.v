From Coq Require Import ZifyBool ZifyNat.
From Verif Require Import Base FifoModel FifoSpec FifoProofs BfsModel BfsSpec.
Local Open Scope Z_scope.

Section bfs.
Context {C : Type} `{Countable C}.
Context (cells : list C) (inb onb : C -> bool) (nbrs : C -> list C) (thresh : Z) (grid : gmap C Z).
Context (Hcells : forall c, c ∈ cells <-> inb c = true).
Context (Hnd : NoDup cells).
Context (Hint : forall c x, inb c = true -> onb c = false -> x ∈ nbrs c -> inb x = true).
Context (Hgrid : forall c, inb c = true -> is_Some (grid !! c)).

Definition allowed (x : C) : Prop := inb x = true /\ exists g, grid !! x = Some g /\ g < thresh.
Definition adj (c x : C) : Prop := x ∈ nbrs c.

Definition unassigned (m : gmap C Z) : nat := length (filter (fun c => m !! c = Some (-1)) cells).
Definition mok (m : gmap C Z) : Prop :=
  (forall c, is_Some (m !! c) <-> inb c = true) /\ (forall c d, m !! c = Some d -> -1 <= d).

Lemma unassigned_le m m' : (forall c, m' !! c = Some (-1) -> m !! c = Some (-1)) -> (unassigned m' <= unassigned m)%nat.
Proof.
  intros Hs. unfold unassigned. clear Hcells Hnd. induction cells as [|c cs IH]; [done|].
  rewrite !filter_cons. repeat destruct (decide _); simpl; try lia. exfalso. eauto.
Qed.
Lemma unassigned_lt m m' x : x ∈ cells -> m !! x = Some (-1) -> m' !! x <> Some (-1) ->
  (forall c, m' !! c = Some (-1) -> m !! c = Some (-1)) -> (S (unassigned m') <= unassigned m)%nat.
Proof.
  intros Hx H1 H2 Hs. unfold unassigned. clear Hcells Hnd. induction cells as [|c cs IH]; [set_solver|].
  rewrite !filter_cons. apply elem_of_cons in Hx as [->|Hx].
  - destruct (decide (m' !! c = Some (-1))); [done|]. destruct (decide (m !! c = Some (-1))); [|done]. simpl.
    assert (length (filter (fun c0 : C => m' !! c0 = Some (-1)%Z) cs) <= length (filter (fun c0 : C => m !! c0 = Some (-1)%Z) cs))%nat; [|lia].
    clear IH. induction cs as [|c' cs IH]; [done|]. rewrite !filter_cons. repeat destruct (decide _); simpl; try lia. exfalso; eauto.
  - specialize (IH Hx). repeat destruct (decide _); simpl; try lia. exfalso; eauto.
Qed.

Record relaxed (cost : Z) (xs : list C) (b : bfs C) (l : list C) (b' : bfs C) (l' : list C) : Prop := {
  rx_frep : frep (bq b') l';
  rx_size : fsize (bq b') = fsize (bq b);
  rx_ok : mok (bdist b');
  rx_old : forall x d, bdist b !! x = Some d -> 0 <= d -> bdist b' !! x = Some d;
  rx_new : forall x d, bdist b' !! x = Some d -> bdist b !! x = Some d \/ (d = cost /\ x ∈ xs /\ allowed x);
  rx_q : exists new, l' = l ++ new /\ (forall x, x ∈ new -> bdist b' !! x = Some cost) /\
     ((unassigned (bdist b) + length l < fsize (bq b))%nat ->
       forall x, bdist b' !! x <> bdist b !! x -> x ∈ new);
  rx_cnt : (unassigned (bdist b') + length l' <= unassigned (bdist b) + length l)%nat;
  rx_all : forall x, x ∈ xs -> allowed x -> exists d, bdist b' !! x = Some d /\ 0 <= d
}.

Lemma relaxed_nil cost b l : frep (bq b) l -> mok (bdist b) -> relaxed cost [] b l b l.
Proof.
  intros Hf Hok. constructor; auto.
  - exists []. split_and!; [by rewrite app_nil_r|set_solver|done].
  - set_solver.
Qed.

Lemma relaxed_app cost xs ys b0 l0 b1 l1 b2 l2 : 0 <= cost ->
  relaxed cost xs b0 l0 b1 l1 -> relaxed cost ys b1 l1 b2 l2 -> relaxed cost (xs ++ ys) b0 l0 b2 l2.
Proof.
  intros Hc [A1 A2 A3 A4 A5 A6 A7 A8] [B1 B2 B3 B4 B5 B6 B7 B8]. constructor; auto.
  - congruence.
  - intros x d Hx. destruct (B5 x d Hx) as [Hx1|(?&?&?)]; [|right; set_solver].
    destruct (A5 x d Hx1) as [?|(?&?&?)]; [by left|right; set_solver].
  - destruct A6 as (n1&->&Hn1&Hk1), B6 as (n2&->&Hn2&Hk2). exists (n1 ++ n2). split_and!.
    + by rewrite app_assoc.
    + intros x [Hx|Hx]%elem_of_app; auto.
    + intros Hlt x Hx. rewrite elem_of_app.
      destruct (decide (bdist b1 !! x = bdist b0 !! x)) as [E|E].
      * right. apply Hk2; [lia|congruence].
      * left. auto.
  - lia.
  - intros x [Hx|Hx]%elem_of_app Ha; [|auto]. destruct (A8 x Hx Ha) as (d&Hd&?). exists d. split; [auto|done].
Qed.

Lemma relax_one cost check b l x : 0 <= cost -> frep (bq b) l -> mok (bdist b) ->
  (check = false -> inb x = true) ->
  exists b' l', bfs_relax inb thresh grid check cost b x = Ok b' /\ relaxed cost [x] b l b' l'.
Proof.
  intros Hc Hf Hok Hx. unfold bfs_relax.
  destruct (inb x) eqn:Ex; simpl.
  2:{ destruct check; [|by specialize (Hx eq_refl)]. simpl. exists b, l. split; [done|].
      constructor; auto.
      - exists []. split_and!; [by rewrite app_nil_r|set_solver|done].
      - intros y ->%elem_of_list_singleton [? _]. congruence. }
  rewrite andb_false_r. destruct (proj2 (proj1 Hok x) Ex) as [d Hd]. rewrite Hd.
  pose proof (proj2 Hok x d Hd) as Hd1.
  destruct (Z.ltb_spec d 0) as [Hneg|Hpos].
  2:{ exists b, l. split; [done|]. constructor; auto.
      - exists []. split_and!; [by rewrite app_nil_r|set_solver|done].
      - intros y ->%elem_of_list_singleton _. eauto. }
  destruct (Hgrid x Ex) as [g Hg]. rewrite Hg. destruct (Z.ltb_spec g thresh) as [Hlt|Hge].
  2:{ exists b, l. split; [done|]. constructor; auto.
      - exists []. split_and!; [by rewrite app_nil_r|set_solver|done].
      - intros y ->%elem_of_list_singleton (_&g'&Hg'&?). assert (g = g') by congruence. lia. }
  assert (d = -1) as -> by lia.
  assert (allowed x) as Hal by (split; eauto).
  assert (mok (<[x:=cost]> (bdist b))) as Hok'.
  { split.
    - intros c. destruct (decide (c = x)) as [->|]; [rewrite lookup_insert|rewrite lookup_insert_ne by done]; [|apply Hok].
      split; eauto.
    - intros c d'. destruct (decide (c = x)) as [->|]; [rewrite lookup_insert|rewrite lookup_insert_ne by done]; [|apply Hok].
      intros [= <-]. lia. }
  assert (S (unassigned (<[x:=cost]> (bdist b))) <= unassigned (bdist b))%nat as Hun.
  { apply (unassigned_lt _ _ x); [by apply Hcells|done| |].
    - rewrite lookup_insert. intros [= ?]. lia.
    - intros c. destruct (decide (c = x)) as [->|]; [done|by rewrite lookup_insert_ne]. }
  destruct (decide (length l < fsize (bq b) - 1)%nat) as [Hroom|Hfull].
  - destruct (fifo_insert_ok (bq b) l x Hf Hroom) as (f'&Ef&Hf'&Hs). rewrite Ef. simpl.
    eexists _, (l ++ [x]). split; [done|]. constructor; simpl; auto.
    + intros y d Hy Hd0. rewrite lookup_insert_ne; [done|]. intros ->. rewrite Hd in Hy. injection Hy as <-. lia.
    + intros y d. destruct (decide (y = x)) as [->|]; [rewrite lookup_insert|rewrite lookup_insert_ne by done]; [|auto].
      intros [= <-]. right. set_solver.
    + exists [x]. split_and!; [done| |].
      * intros y ->%elem_of_list_singleton. by rewrite lookup_insert.
      * intros _ y Hy. destruct (decide (y = x)) as [->|]; [set_solver|]. by rewrite lookup_insert_ne in Hy.
    + rewrite app_length. simpl. lia.
    + intros y ->%elem_of_list_singleton _. exists cost. by rewrite lookup_insert.
  - assert (length l = fsize (bq b) - 1)%nat as Hlen by (destruct Hf as (?&?&_); lia).
    rewrite (fifo_insert_full (bq b) l x Hf Hlen). simpl.
    eexists _, l. split; [done|]. constructor; simpl; auto.
    + intros y d Hy Hd0. rewrite lookup_insert_ne; [done|]. intros ->. rewrite Hd in Hy. injection Hy as <-. lia.
    + intros y d. destruct (decide (y = x)) as [->|]; [rewrite lookup_insert|rewrite lookup_insert_ne by done]; [|auto].
      intros [= <-]. right. set_solver.
    + exists []. split_and!; [by rewrite app_nil_r|set_solver|].
      intros Hlt2. exfalso. lia.
    + lia.
    + intros y ->%elem_of_list_singleton _. exists cost. by rewrite lookup_insert.
Qed.

Lemma relax_all cost check : 0 <= cost -> forall xs b l, frep (bq b) l -> mok (bdist b) ->
  (check = false -> forall x, x ∈ xs -> inb x = true) ->
  exists b' l', bfs_relax_all inb thresh grid check cost xs b = Ok b' /\ relaxed cost xs b l b' l'.
Proof.
  intros Hc xs. induction xs as [|x xs IH]; intros b l Hf Hok Hx; simpl.
  - exists b, l. split; [done|]. by apply relaxed_nil.
  - destruct (relax_one cost check b l x Hc Hf Hok ltac:(set_solver)) as (b1&l1&E1&R1).
    rewrite E1. simpl. destruct (IH b1 l1 (rx_frep _ _ _ _ _ _ R1) (rx_ok _ _ _ _ _ _ R1) ltac:(set_solver)) as (b2&l2&E2&R2).
    exists b2, l2. split; [done|]. change (x :: xs) with ([x] ++ xs). eapply relaxed_app; eauto.
Qed.

Section run.
Context (src : C -> Prop) (Full : Prop).
Notation walk := (walk allowed adj src).

Record binv (b : bfs C) (l : list C) : Prop := {
  bi_frep : frep (bq b) l;
  bi_ok : mok (bdist b);
  bi_q : forall c, c ∈ l -> exists d, bdist b !! c = Some d /\ 0 <= d;
  bi_sound : forall c d, bdist b !! c = Some d -> 0 <= d -> walk (Z.to_nat d) c;
  bi_full : Full ->
    (unassigned (bdist b) + length l < fsize (bq b))%nat /\
    (forall c, src c -> inb c = true -> bdist b !! c = Some 0) /\
    (forall c d, bdist b !! c = Some d -> 0 <= d -> c ∈ l \/
        forall x, adj c x -> allowed x -> exists dx, bdist b !! x = Some dx /\ 0 <= dx <= d + 1) /\
    (exists d A B, l = A ++ B /\ (forall c, c ∈ A -> bdist b !! c = Some d) /\
        (forall c, c ∈ B -> bdist b !! c = Some (d + 1)) /\
        (forall c e, bdist b !! c = Some e -> e <= d + 1))
}.

Lemma loop_spec fuel : forall b l, binv b l -> (unassigned (bdist b) + length l < fuel)%nat ->
  exists b', compute_distances inb onb nbrs thresh fuel grid b = Ok b' /\ binv b' [] /\ fsize (bq b') = fsize (bq b).
Proof.
  induction fuel as [|fuel IH]; intros b l Hinv Hfuel; [lia|]. simpl.
  pose proof (bi_frep _ _ Hinv) as Hf. pose proof (fifo_empty_spec _ _ Hf) as He.
  destruct l as [|c l].
  { destruct (fifo_empty (bq b)); [eauto|]. by destruct He as [_ He]; specialize (He eq_refl). }
  destruct (fifo_empty (bq b)). { by destruct He as [He _]; specialize (He eq_refl). }
  destruct (fifo_remove_ok _ _ _ Hf) as (f'&Ef&Hf'&Hs). rewrite Ef. simpl.
  destruct (bi_q _ _ Hinv c ltac:(set_solver)) as (dc&Hdc&Hdc0). rewrite Hdc.
  assert (inb c = true) as Hc. { apply (bi_ok _ _ Hinv). eauto. }
  destruct (relax_all (dc + 1) (onb c) ltac:(lia) (nbrs c) (mkBfs (bdist b) f') l Hf' (bi_ok _ _ Hinv)) as (b'&l'&E&R).
  { intros Ho x Hx. eauto. }
  rewrite E. simpl. destruct R as [R1 R2 R3 R4 R5 R6 R7 R8]. simpl in *.
  assert (binv b' l') as Hinv'.
  { constructor; auto.
    - destruct R6 as (new&->&Hnew&_). intros x [Hx|Hx]%elem_of_app.
      + destruct (bi_q _ _ Hinv x ltac:(set_solver)) as (d&Hd&?). eauto.
      + exists (dc + 1). split; [auto|lia].
    - intros x d Hd Hd0. destruct (R5 x d Hd) as [?|(->&Hx&Hal)]; [by apply (bi_sound _ _ Hinv)|].
      replace (Z.to_nat (dc + 1)) with (S (Z.to_nat dc)) by lia.
      eapply walk_step; [by eapply (bi_sound _ _ Hinv)|exact Hx|exact Hal].
    - intros HF. destruct (bi_full _ _ Hinv HF) as (F1&F2&F3&(d&A&B&El&FA&FB&FM)). simpl in F1.
      split_and!.
      + rewrite R2, Hs. lia.
      + intros x Hx Hin. apply R4; [auto|lia].
      + destruct R6 as (new&->&Hnew&Hkeep). intros x e Hx He0.
        destruct (decide (bdist b' !! x = bdist b !! x)) as [Es|Es].
        * rewrite Es in Hx. destruct (decide (x = c)) as [->|Hxc].
          -- right. assert (e = dc) as -> by congruence. intros y Hy Hal. destruct (R8 y Hy Hal) as (dy&Hdy&?).
             exists dy. split; [done|]. split; [done|]. destruct (R5 y dy Hdy) as [Hold|(->&_)]; [|lia].
             apply FM in Hold as Hle.
             assert (d <= dc) as Hddc.
             { destruct A as [|a A]; simpl in El; [subst B|].
               - specialize (FB c ltac:(set_solver)). rewrite Hdc in FB. injection FB as ->. lia.
               - injection El as <- _. specialize (FA c ltac:(set_solver)). rewrite Hdc in FA. injection FA as ->. lia. }
             lia.
          -- destruct (F3 x e Hx He0) as [Hxl|Hxd].
             ++ left. set_solver.
             ++ right. intros y Hy Hal. destruct (Hxd y Hy Hal) as (dy&?&?). exists dy. split; [apply R4; [done|lia]|done].
        * left. rewrite elem_of_app. right. apply Hkeep; [lia|done].
      + destruct R6 as (new&->&Hnew&Hkeep).
        destruct A as [|a A]; simpl in El.
        * (* c is the first of B: the level advances *)
          subst B. assert (dc = d + 1) as ->. { specialize (FB c ltac:(set_solver)). congruence. }
          exists (d + 1), l, new. split_and!; [done| |done|].
          -- intros x Hx. apply R4; [apply FB; set_solver|lia].
          -- intros x e Hx. destruct (R5 x e Hx) as [Ho|(->&_)]; [apply FM in Ho; lia|lia].
        * injection El as <- ->. assert (dc = d) as ->. { specialize (FA c ltac:(set_solver)). congruence. }
          exists d, A, (B ++ new). split_and!; [by rewrite app_assoc| | |].
          -- intros x Hx. apply R4; [apply FA; set_solver|lia].
          -- intros x [Hx|Hx]%elem_of_app; [|auto]. apply R4; [apply FB; set_solver|lia].
          -- intros x e Hx. destruct (R5 x e Hx) as [Ho|(->&_)]; [by apply FM in Ho|lia]. }
  destruct (IH b' l' Hinv') as (b''&Eb&Hb&Hsz); [simpl in Hfuel; lia|]. exists b''. split_and!; [done|done|congruence].
Qed.

Lemma final_sound b : binv b [] -> forall c d, bdist b !! c = Some d -> d = -1 \/ (0 <= d /\ walk (Z.to_nat d) c).
Proof.
  intros Hinv c d Hd. pose proof (proj2 (bi_ok _ _ Hinv) c d Hd). destruct (decide (d = -1)); [by left|right].
  split; [lia|]. apply (bi_sound _ _ Hinv); [done|lia].
Qed.

Lemma final_exact b : Full -> (forall c, src c -> inb c = true) -> binv b [] ->
  forall c, inb c = true -> exists d, bdist b !! c = Some d /\ is_distance allowed adj src c d.
Proof.
  intros HF Hsrc Hinv. destruct (bi_full _ _ Hinv HF) as (_&F2&F3&_).
  assert (forall n c, walk n c -> exists d, bdist b !! c = Some d /\ 0 <= d <= Z.of_nat n) as Hcompl.
  { intros n c Hw. induction Hw as [c Hs|n c c' Hw IHw Ha Hal].
    - exists 0. split; [auto|lia].
    - destruct IHw as (d&Hd&?). destruct (F3 c d Hd ltac:(lia)) as [?|Hx]; [set_solver|].
      destruct (Hx c' Ha Hal) as (dx&?&?). exists dx. split; [done|lia]. }
  intros c Hc. destruct (proj2 (proj1 (bi_ok _ _ Hinv) c) Hc) as [d Hd]. exists d. split; [done|].
  destruct (final_sound b Hinv c d Hd) as [->|[Hd0 Hw]].
  - left. split; [done|]. intros n Hw. destruct (Hcompl n c Hw) as (d&Hd'&?). rewrite Hd in Hd'. injection Hd' as <-. lia.
  - right. split_and!; [done|done|]. intros n Hn. destruct (Hcompl n c Hn) as (d'&Hd'&?). rewrite Hd in Hd'. injection Hd' as <-. lia.
Qed.
End run.

(** Initialisation. *)
Lemma clear_lookup d : forall cs c, foldl (fun d c => <[c := -1]> d) d cs !! c = if decide (c ∈ cs) then Some (-1) else (d : gmap C Z) !! c.
Proof.
  intros cs. revert d. induction cs as [|c0 cs IH]; intros d c; simpl.
  - destruct (decide (c ∈ [])); [set_solver|done].
  - rewrite IH. destruct (decide (c ∈ cs)), (decide (c ∈ c0 :: cs)); try done.
    + exfalso. apply n. by right.
    + apply lookup_insert_Some. left. apply elem_of_cons in e as [->|?]; done.
    + apply lookup_insert_ne. intros ->. apply n0. by left.
Qed.

(** The allocation: the object's dist_ has no key outside the grid. *)
Definition alloc_ok (b : bfs C) : Prop := forall c, is_Some (bdist b !! c) -> inb c = true.

Lemma reset_ok b l : frep (bq b) l -> alloc_ok b ->
  let b' := bfs_reset cells b in
  frep (bq b') [] /\ fsize (bq b') = fsize (bq b) /\ mok (bdist b') /\ (forall c d, bdist b' !! c = Some d -> d = -1).
Proof.
  intros Hf Ha b'. destruct (fifo_clear_spec _ _ Hf) as [H1 H2]. split_and!; [done|done| |].
  - split; intros c; simpl; unfold clear_distances; rewrite clear_lookup; destruct (decide (c ∈ cells)) as [Hc|Hc].
    + apply Hcells in Hc. split; eauto.
    + rewrite Hcells in Hc. split; [apply Ha|done].
    + intros d [= <-]. lia.
    + intros d Hd. exfalso. apply Hc, Hcells, Ha. eauto.
  - intros c d; simpl; unfold clear_distances; rewrite clear_lookup; destruct (decide (c ∈ cells)) as [Hc|Hc].
    + by intros [= <-].
    + intros Hd. exfalso. apply Hc, Hcells, Ha. eauto.
Qed.

(** State while sources are being added. *)
Record sinv (srcs : list C) (b : bfs C) (l : list C) : Prop := {
  si_frep : frep (bq b) l;
  si_ok : mok (bdist b);
  si_q : forall c, c ∈ l -> c ∈ srcs;
  si_dist : forall c, inb c = true -> bdist b !! c = Some (if decide (c ∈ srcs) then 0 else -1);
  si_len : (length l <= length srcs)%nat;
  si_full : (length srcs < fsize (bq b))%nat -> length l = length srcs /\ forall c, c ∈ srcs -> c ∈ l
}.

Lemma add_source_spec srcs b l c : sinv srcs b l -> inb c = true ->
  exists b' l', add_source b c = Ok b' /\ sinv (c :: srcs) b' l' /\ fsize (bq b') = fsize (bq b).
Proof.
  intros Hinv Hc. unfold add_source. rewrite (si_dist _ _ _ Hinv c Hc).
  assert (mok (<[c:=0]> (bdist b))) as Hok'.
  { split.
    - intros x. destruct (decide (x = c)) as [->|]; [rewrite lookup_insert|rewrite lookup_insert_ne by done]; [|apply Hinv].
      split; eauto.
    - intros x d'. destruct (decide (x = c)) as [->|]; [rewrite lookup_insert|rewrite lookup_insert_ne by done]; [|apply Hinv].
      intros [= <-]. lia. }
  assert (forall x, inb x = true -> <[c:=0]> (bdist b) !! x = Some (if decide (x ∈ c :: srcs) then 0 else -1)) as Hd'.
  { intros x Hx. destruct (decide (x = c)) as [->|]; [rewrite lookup_insert; destruct (decide _); set_solver|].
    rewrite lookup_insert_ne, (si_dist _ _ _ Hinv) by done. repeat destruct (decide _); set_solver. }
  pose proof (si_frep _ _ _ Hinv) as Hf.
  destruct (decide (length l < fsize (bq b) - 1)%nat) as [Hroom|Hfull].
  - destruct (fifo_insert_ok (bq b) l c Hf Hroom) as (f'&Ef&Hf'&Hs). rewrite Ef. simpl.
    eexists _, (l ++ [c]). split; [done|]. split; [|done]. constructor; simpl; auto.
    + intros x [Hx|Hx]%elem_of_app; [apply (si_q _ _ _ Hinv) in Hx|]; set_solver.
    + rewrite app_length. simpl. pose proof (si_len _ _ _ Hinv). lia.
    + rewrite Hs. intros Hlt. destruct (si_full _ _ _ Hinv ltac:(lia)) as [Hl Hm].
      rewrite app_length. simpl. split; [lia|]. set_solver.
  - assert (length l = fsize (bq b) - 1)%nat as Hlen by (destruct Hf as (?&?&_); lia).
    rewrite (fifo_insert_full (bq b) l c Hf Hlen). simpl.
    eexists _, l. split; [done|]. split; [|done]. constructor; simpl; auto.
    + intros x Hx. apply (si_q _ _ _ Hinv) in Hx. set_solver.
    + pose proof (si_len _ _ _ Hinv). lia.
    + intros Hlt. destruct (si_full _ _ _ Hinv ltac:(lia)) as [Hl Hm]. exfalso. lia.
Qed.

Lemma sinv_binv srcs b l (Full : Prop) : sinv srcs b l -> (forall c, c ∈ srcs -> inb c = true) ->
  (Full -> (unassigned (bdist b) + length srcs < fsize (bq b))%nat) -> binv (.∈ srcs) Full b l.
Proof.
  intros Hinv Hsrc HF. constructor.
  - apply Hinv.
  - apply Hinv.
  - intros c Hc. apply (si_q _ _ _ Hinv) in Hc. exists 0. rewrite (si_dist _ _ _ Hinv) by auto.
    rewrite decide_True by done. done.
  - intros c d Hd Hd0. rewrite (si_dist _ _ _ Hinv) in Hd by (apply (si_ok _ _ _ Hinv); eauto).
    destruct (decide (c ∈ srcs)); [|injection Hd as <-; lia]. injection Hd as <-. by apply walk_src.
  - intros HFull. specialize (HF HFull). destruct (si_full _ _ _ Hinv ltac:(lia)) as [Hl Hm].
    assert (forall c d, bdist b !! c = Some d -> 0 <= d -> c ∈ l /\ d = 0) as Hin.
    { intros c d Hd Hd0. rewrite (si_dist _ _ _ Hinv) in Hd by (apply (si_ok _ _ _ Hinv); eauto).
      destruct (decide (c ∈ srcs)); [|injection Hd as <-; lia]. injection Hd as <-. auto. }
    split_and!.
    + lia.
    + intros c Hc Hi. rewrite (si_dist _ _ _ Hinv) by done. by rewrite decide_True.
    + intros c d Hd Hd0. left. by eapply Hin.
    + exists 0, l, []. split_and!; [by rewrite app_nil_r| |set_solver|].
      * intros c Hc. apply (si_q _ _ _ Hinv) in Hc. rewrite (si_dist _ _ _ Hinv) by auto. by rewrite decide_True.
      * intros c e He. destruct (decide (0 <= e)); [|lia]. destruct (Hin c e He ltac:(done)). lia.
Qed.

Lemma unassigned_total m : (unassigned m <= length cells)%nat.
Proof. apply filter_length. Qed.
Lemma unassigned_srcs m srcs : NoDup srcs -> (forall c, c ∈ srcs -> inb c = true /\ m !! c <> Some (-1)) ->
  (unassigned m + length srcs <= length cells)%nat.
Proof.
  intros Hs Hm. unfold unassigned. rewrite <- app_length.
  apply submseteq_length, NoDup_submseteq.
  - apply NoDup_app. split_and!; [by apply NoDup_filter| |done].
    intros c Hc Hc'. apply elem_of_list_filter in Hc as [? _]. by apply (Hm c Hc').
  - intros c [Hc|Hc]%elem_of_app; [by apply elem_of_list_filter in Hc as [_ ?]|]. apply Hcells. by apply Hm.
Qed.

Definition exact_result (src : C -> Prop) (b : bfs C) : Prop :=
  forall c, inb c = true -> exists d, bdist b !! c = Some d /\ is_distance allowed adj src c d.
Definition sound_result (src : C -> Prop) (b : bfs C) : Prop :=
  forall c, inb c = true -> exists d, bdist b !! c = Some d /\ (d = -1 \/ (0 <= d /\ walk allowed adj src (Z.to_nat d) c)).
Definition bwf (b : bfs C) : Prop := alloc_ok b /\ exists l, frep (bq b) l.

Lemma run_spec srcs b l : sinv srcs b l -> (forall c, c ∈ srcs -> inb c = true) ->
  exists b', compute_distances inb onb nbrs thresh (bfs_fuel cells b) grid b = Ok b' /\ bwf b' /\
    fsize (bq b') = fsize (bq b) /\ sound_result (.∈ srcs) b' /\
    ((unassigned (bdist b) + length srcs < fsize (bq b))%nat -> exact_result (.∈ srcs) b').
Proof.
  intros Hs Hsrc.
  destruct (loop_spec (.∈ srcs) (unassigned (bdist b) + length srcs < fsize (bq b))%nat (bfs_fuel cells b) b l) as (b'&E&Hb&Hsz).
  - apply sinv_binv; auto.
  - unfold bfs_fuel. pose proof (unassigned_total (bdist b)). destruct (si_frep _ _ _ Hs) as (?&?&_). lia.
  - exists b'. split_and!; [done| |done| |].
    + split; [|exists []; apply Hb]. intros c Hc. by apply (bi_ok _ _ _ _ Hb).
    + intros c Hc. destruct (proj2 (proj1 (bi_ok _ _ _ _ Hb) c) Hc) as [d Hd]. exists d. split; [done|].
      by eapply final_sound.
    + intros HF. intros c Hc. exact (final_exact (fun x => x ∈ srcs) _ b' HF Hsrc Hb c Hc).
Qed.

Lemma sinv_reset b : bwf b -> sinv [] (bfs_reset cells b) [] /\ fsize (bq (bfs_reset cells b)) = fsize (bq b).
Proof.
  intros [Ha [l Hl]]. destruct (reset_ok b l Hl Ha) as (H1&H2&H3&H4). split; [|done]. constructor; auto.
  intros c Hc. destruct (proj2 (proj1 H3 c) Hc) as [d Hd]. rewrite Hd. by rewrite (H4 c d Hd).
Qed.

Lemma from_point_spec b c : bwf b ->
  exists r b', compute_distance_from_point cells inb onb nbrs thresh grid c b = Ok (r, b') /\ bwf b' /\
    fsize (bq b') = fsize (bq b) /\ r = inb c /\ (r = false -> b' = b) /\
    (r = true -> sound_result (.= c) b' /\ ((length cells < fsize (bq b))%nat -> exact_result (.= c) b')).
Proof.
  intros Hb. unfold compute_distance_from_point. destruct (inb c) eqn:Ec; simpl.
  2:{ exists false, b. split_and!; auto; done. }
  destruct (sinv_reset b Hb) as [Hs Hsz].
  destruct (add_source_spec [] _ _ c Hs Ec) as (b1&l1&E1&Hs1&Hsz1). rewrite E1. simpl.
  destruct (run_spec [c] b1 l1 Hs1) as (b2&E2&Hb2&Hsz2&Hsd&Hex); [set_solver|]. rewrite E2. simpl.
  assert (forall x, (.∈ [c]) x <-> (.= c) x) as Hiff by (intros; apply elem_of_list_singleton).
  assert (forall n x, walk allowed adj (.∈ [c]) n x <-> walk allowed adj (.= c) n x) as Hw.
  { intros n x. split; (induction 1 as [x Hx|]; [apply walk_src; by apply Hiff|eapply walk_step; eauto]). }
  exists true, b2. split_and!; [done|done|congruence|done|done|]. intros _. split.
  - intros x Hx. destruct (Hsd x Hx) as (d&Hd&[->|[? ?]]); exists d || exists (-1); split; auto. right. rewrite <- Hw. auto.
  - intros Hlt x Hx. destruct Hex with (c := x) as (d&Hd&Hdist); [|done|].
    + simpl. pose proof (unassigned_srcs (bdist b1) [c] ltac:(apply NoDup_singleton)) as Hu.
      rewrite Hsz1, Hsz. simpl in Hu. cut (unassigned (bdist b1) + 1 <= length cells)%nat; [lia|]. apply Hu.
      intros y ->%elem_of_list_singleton. split; [done|]. rewrite (si_dist _ _ _ Hs1) by done. rewrite decide_True by set_solver. done.
    + exists d. split; [done|]. destruct Hdist as [[-> Hn]|(?&?&Hn)]; [left|right]; split_and!; auto.
      * intros n. rewrite <- Hw. auto.
      * by rewrite <- Hw.
      * intros n. rewrite <- Hw. auto.
Qed.

Lemma add_sources_spec cs : forall srcs b l, sinv srcs b l ->
  exists r b' l', add_sources inb cs b = Ok (r, b') /\ fsize (bq b') = fsize (bq b) /\
    exists srcs', sinv srcs' b' l' /\ (r = true <-> forall c, c ∈ cs -> inb c = true) /\ (r = true -> srcs' = reverse cs ++ srcs).
Proof.
  induction cs as [|c cs IH]; intros srcs b l Hs; simpl.
  - exists true, b, l. split_and!; auto. exists srcs. split_and!; auto. split; [set_solver|done].
  - destruct (inb c) eqn:Ec; simpl.
    + destruct (add_source_spec srcs b l c Hs Ec) as (b1&l1&E1&Hs1&Hsz1). rewrite E1. simpl.
      destruct (IH (c :: srcs) b1 l1 Hs1) as (r&b'&l'&E&Hsz&srcs'&Hs'&Hr&Hrs). exists r, b', l'.
      split_and!; [done|congruence|]. exists srcs'. split_and!; [done| |].
      * rewrite Hr. split; intros HH x Hx; [|apply HH; set_solver]. apply elem_of_cons in Hx as [->|?]; auto.
      * intros ->. rewrite reverse_cons, <- app_assoc. by apply Hrs.
    + exists false, b, l. split_and!; auto. exists srcs. split_and!; [done| |done]. split; [done|].
      intros HH. rewrite HH in Ec by set_solver. done.
Qed.

Lemma from_points_spec b cs : bwf b ->
  exists r b', compute_distance_from_points cells inb onb nbrs thresh grid cs b = Ok (r, b') /\ bwf b' /\
    fsize (bq b') = fsize (bq b) /\ (r = true <-> forall c, c ∈ cs -> inb c = true) /\
    (r = true -> sound_result (.∈ cs) b' /\ ((length cells < fsize (bq b))%nat -> NoDup cs -> exact_result (.∈ cs) b')).
Proof.
  intros Hb. unfold compute_distance_from_points.
  destruct (sinv_reset b Hb) as [Hs Hsz].
  destruct (add_sources_spec cs [] _ _ Hs) as (r&b1&l1&E1&Hsz1&srcs&Hs1&Hr&Hrs). rewrite E1. simpl.
  destruct r.
  2:{ exists false, b1. split_and!; [done| |congruence|done|done].
      split; [|eexists; apply Hs1]. intros c Hc. by apply (si_ok _ _ _ Hs1). }
  specialize (Hrs eq_refl). rewrite app_nil_r in Hrs. subst srcs. pose proof (proj1 Hr eq_refl) as Hin.
  destruct (run_spec (reverse cs) b1 l1 Hs1) as (b2&E2&Hb2&Hsz2&Hsd&Hex).
  { intros c Hc. apply Hin. by rewrite elem_of_reverse in Hc. }
  rewrite E2. simpl.
  assert (forall x, (.∈ reverse cs) x <-> (.∈ cs) x) as Hiff by (intros; apply elem_of_reverse).
  assert (forall n x, walk allowed adj (.∈ reverse cs) n x <-> walk allowed adj (.∈ cs) n x) as Hw.
  { intros n x. split; (induction 1 as [x Hx|]; [apply walk_src; by apply Hiff|eapply walk_step; eauto]). }
  exists true, b2. split_and!; [done|done|congruence|done|]. intros _. split.
  - intros x Hx. destruct (Hsd x Hx) as (d&Hd&[->|[? ?]]); exists d || exists (-1); split; auto. right. rewrite <- Hw. auto.
  - intros Hlt Hnd' x Hx. destruct Hex with (c := x) as (d&Hd&Hdist); [|done|].
    + rewrite Hsz1, Hsz. pose proof (unassigned_srcs (bdist b1) (reverse cs) ltac:(by rewrite (reverse_Permutation cs))) as Hu.
      cut (unassigned (bdist b1) + length (reverse cs) <= length cells)%nat; [lia|]. apply Hu.
      intros y Hy. assert (inb y = true) as Hiy by (apply Hin; by rewrite elem_of_reverse in Hy).
      split; [done|]. rewrite (si_dist _ _ _ Hs1) by done. rewrite decide_True by done. done.
    + exists d. split; [done|]. destruct Hdist as [[-> Hn]|(?&?&Hn)]; [left|right]; split_and!; auto.
      * intros n. rewrite <- Hw. auto.
      * by rewrite <- Hw.
      * intros n. rewrite <- Hw. auto.
Qed.

Definition obstacle (c : C) : Prop := inb c = true /\ exists g, grid !! c = Some g /\ thresh <= g.

Lemma add_obs_spec cs : forall srcs b l, sinv srcs b l -> (forall c, c ∈ cs -> inb c = true) -> NoDup srcs -> NoDup cs ->
  (forall c, c ∈ cs -> c ∉ srcs) ->
  exists b' l' srcs', add_obs thresh grid cs b = Ok b' /\ fsize (bq b') = fsize (bq b) /\ sinv srcs' b' l' /\ NoDup srcs' /\
    (forall c, c ∈ srcs' <-> c ∈ srcs \/ (c ∈ cs /\ obstacle c)).
Proof.
  induction cs as [|c cs IH]; intros srcs b l Hs Hin Hnd1 Hnd2 Hdis; simpl.
  - exists b, l, srcs. split_and!; auto. set_solver.
  - apply NoDup_cons in Hnd2 as [Hc Hnd2]. assert (inb c = true) as Ec by (apply Hin; set_solver).
    destruct (Hgrid c Ec) as [g Hg]. rewrite Hg. destruct (Z.geb_spec g thresh).
    + destruct (add_source_spec srcs b l c Hs Ec) as (b1&l1&E1&Hs1&Hsz1). rewrite E1. simpl.
      destruct (IH (c :: srcs) b1 l1 Hs1) as (b'&l'&srcs'&E&Hsz&Hs'&Hn'&Hm).
      { set_solver. } { apply NoDup_cons. split; [|done]. apply Hdis. set_solver. } { done. } { set_solver. }
      exists b', l', srcs'. split_and!; [done|congruence|done|done|].
      intros x. rewrite Hm. rewrite !elem_of_cons. split.
      * intros [[->|?]|[? ?]]; [right|by left|right]; split; auto. split; eauto.
      * intros [?|[[->|?] ?]]; auto.
    + destruct (IH srcs b l Hs) as (b'&l'&srcs'&E&Hsz&Hs'&Hn'&Hm); [set_solver|done|done|set_solver|].
      exists b', l', srcs'. split_and!; auto. intros x. rewrite Hm, elem_of_cons. split.
      * intros [?|[? ?]]; auto.
      * intros [?|[[->|?] Ho]]; auto. destruct Ho as (_&g'&Hg'&?). assert (g = g') by congruence. lia.
Qed.

Lemma from_obs_spec b : bwf b ->
  exists b', compute_distance_from_obs cells inb onb nbrs thresh grid b = Ok b' /\ bwf b' /\
    fsize (bq b') = fsize (bq b) /\ sound_result obstacle b' /\
    ((length cells < fsize (bq b))%nat -> exact_result obstacle b').
Proof.
  intros Hb. unfold compute_distance_from_obs.
  destruct (sinv_reset b Hb) as [Hs Hsz].
  destruct (add_obs_spec cells [] _ _ Hs) as (b1&l1&srcs&E1&Hsz1&Hs1&Hn1&Hm).
  { intros c. apply Hcells. } { by apply NoDup_nil. } { done. } { set_solver. }
  rewrite E1. simpl.
  assert (forall x, (.∈ srcs) x <-> obstacle x) as Hiff.
  { intros x. unfold flip. rewrite Hm. split; [intros [?|[_ ?]]; [set_solver|done]|]. intros Ho. right. split; [|done]. apply Hcells, Ho. }
  assert (forall x, x ∈ srcs -> inb x = true) as Hin. { intros x Hx. apply Hiff in Hx. apply Hx. }
  destruct (run_spec srcs b1 l1 Hs1 Hin) as (b2&E2&Hb2&Hsz2&Hsd&Hex). rewrite E2.
  assert (forall n x, walk allowed adj (.∈ srcs) n x <-> walk allowed adj obstacle n x) as Hw.
  { intros n x. split; (induction 1 as [x Hx|]; [apply walk_src; by apply Hiff|eapply walk_step; eauto]). }
  exists b2. split_and!; [done|done|congruence| |].
  - intros x Hx. destruct (Hsd x Hx) as (d&Hd&[->|[? ?]]); exists d || exists (-1); split; auto. right. rewrite <- Hw. auto.
  - intros Hlt x Hx. destruct Hex with (c := x) as (d&Hd&Hdist); [|done|].
    + rewrite Hsz1, Hsz. pose proof (unassigned_srcs (bdist b1) srcs Hn1) as Hu.
      cut (unassigned (bdist b1) + length srcs <= length cells)%nat; [lia|]. apply Hu.
      intros y Hy. split; [auto|]. rewrite (si_dist _ _ _ Hs1) by auto. rewrite decide_True by done. done.
    + exists d. split; [done|]. destruct Hdist as [[-> Hn]|(?&?&Hn)]; [left|right]; split_and!; auto.
      * intros n. rewrite <- Hw. auto.
      * by rewrite <- Hw.
      * intros n. rewrite <- Hw. auto.
Qed.
End bfs.

(** * Histories of one object (any cell type) *)
Section history.
Context {C : Type} `{Countable C}.
Context (cells : list C) (inb onb : C -> bool) (nbrs : C -> list C) (thresh : Z) (fs : nat).
Definition covers (grid : gmap C Z) : Prop := forall c, inb c = true -> is_Some (grid !! c).
(** Every object obtained from the constructor by any sequence of calls on any grids. *)
Inductive bfs_reachable : bfs C -> Prop :=
| br_new d0 : (forall c, is_Some (d0 !! c) -> inb c = true) -> bfs_reachable (new_bfs d0 fs)
| br_point grid c b r b' : covers grid -> bfs_reachable b ->
    compute_distance_from_point cells inb onb nbrs thresh grid c b = Ok (r, b') -> bfs_reachable b'
| br_points grid cs b r b' : covers grid -> bfs_reachable b ->
    compute_distance_from_points cells inb onb nbrs thresh grid cs b = Ok (r, b') -> bfs_reachable b'
| br_obs grid b b' : covers grid -> bfs_reachable b ->
    compute_distance_from_obs cells inb onb nbrs thresh grid b = Ok b' -> bfs_reachable b'.

Context (Hcells : forall c, c ∈ cells <-> inb c = true) (Hnd : NoDup cells)
  (Hint : forall c x, inb c = true -> onb c = false -> x ∈ nbrs c -> inb x = true) (Hfs : (0 < fs)%nat).
Lemma reachable_wf b : bfs_reachable b -> bwf inb b /\ fsize (bq b) = fs.
Proof.
  induction 1 as [d0 Hd|grid c b r b' Hg _ [IH Hsz] E|grid cs b r b' Hg _ [IH Hsz] E|grid b b' Hg _ [IH Hsz] E].
  - split; [|done]. split; [done|]. exists []. by apply new_fifo_frep.
  - destruct (from_point_spec cells inb onb nbrs thresh grid Hcells Hnd Hint Hg b c IH) as (r0&b0&E0&H1&H2&_).
    rewrite E in E0. injection E0 as <- <-. split; [done|congruence].
  - destruct (from_points_spec cells inb onb nbrs thresh grid Hcells Hnd Hint Hg b cs IH) as (r0&b0&E0&H1&H2&_).
    rewrite E in E0. injection E0 as <- <-. split; [done|congruence].
  - destruct (from_obs_spec cells inb onb nbrs thresh grid Hcells Hnd Hint Hg b IH) as (b0&E0&H1&H2&_).
    rewrite E in E0. injection E0 as <-. split; [done|congruence].
Qed.
End history.

Lemma walk_iff {C} (al al' : C -> Prop) (ad ad' : C -> C -> Prop) (sr sr' : C -> Prop) :
  (forall c, al c <-> al' c) -> (forall c x, ad c x <-> ad' c x) -> (forall c, sr c <-> sr' c) ->
  forall n c, walk al ad sr n c <-> walk al' ad' sr' n c.
Proof.
  intros H1 H2 H3 n c. split; (induction 1 as [x Hx|n x y _ IH Ha Hb]; [apply walk_src; by apply H3|eapply walk_step; [exact IH|by apply H2|by apply H1]]).
Qed.
Lemma is_distance_iff {C} (al al' : C -> Prop) (ad ad' : C -> C -> Prop) (sr sr' : C -> Prop) :
  (forall c, al c <-> al' c) -> (forall c x, ad c x <-> ad' c x) -> (forall c, sr c <-> sr' c) ->
  forall c d, is_distance al ad sr c d <-> is_distance al' ad' sr' c d.
Proof.
  intros H1 H2 H3 c d. pose proof (walk_iff al al' ad ad' sr sr' H1 H2 H3) as Hw. unfold is_distance.
  setoid_rewrite Hw. done.
Qed.

(** * 2D *)
Lemma elem_zrange n z : z ∈ zrange n <-> 0 <= z < Z.of_nat n.
Proof.
  unfold zrange. rewrite elem_of_list_fmap. split.
  - intros (y&->&Hy). apply elem_of_seq in Hy. lia.
  - intros Hz. exists (Z.to_nat z). split; [lia|]. apply elem_of_seq. lia.
Qed.
Lemma NoDup_zrange n : NoDup (zrange n).
Proof. unfold zrange. apply NoDup_fmap_2; [intros ??; lia|apply NoDup_seq]. Qed.

Lemma NoDup_bind_pair {A B D} (f : A -> list B) (g : A -> B -> D) (l : list A) :
  NoDup l -> (forall a, a ∈ l -> NoDup (f a)) -> (forall a a' b b', g a b = g a' b' -> a = a' /\ b = b') ->
  NoDup (a ← l; g a <$> f a).
Proof.
  intros Hl Hf Hg. induction Hl as [|a l Ha Hl IH]; [apply NoDup_nil; done|]. simpl. apply NoDup_app. split_and!.
  - apply NoDup_fmap_2_strong; [|apply Hf; set_solver]. intros x y _ _ E. by apply Hg in E as [_ ?].
  - intros x Hx Hx'. apply elem_of_list_fmap in Hx as (b&->&_). apply elem_of_list_bind in Hx' as (a'&Hx'&Ha').
    apply elem_of_list_fmap in Hx' as (b'&E&_). apply Hg in E as [-> _]. done.
  - apply IH. intros; apply Hf; set_solver.
Qed.

Section two.
Context (sx sy : nat).
Lemma inb2_spec c : inb2 sx sy c = true <-> inside2 sx sy c.
Proof. unfold inb2, inside2. lia. Qed.
Lemma cells2_spec c : c ∈ cells2 sx sy <-> inb2 sx sy c = true.
Proof.
  rewrite inb2_spec. unfold cells2, inside2. rewrite elem_of_list_bind. destruct c as [x y]. simpl. split.
  - intros (x'&Hin&Hx). apply elem_of_list_fmap in Hin as (y'&[= <- <-]&Hy). apply elem_zrange in Hx, Hy. done.
  - intros [Hx Hy]. exists x. split; [|by apply elem_zrange]. apply elem_of_list_fmap. exists y. split; [done|]. by apply elem_zrange.
Qed.
Lemma cells2_NoDup : NoDup (cells2 sx sy).
Proof.
  unfold cells2. apply (NoDup_bind_pair (fun _ => zrange sy) (fun x y => (x, y))); auto using NoDup_zrange.
  intros a a' b b' E. by injection E.
Qed.
Lemma cells2_length : length (cells2 sx sy) = (sx * sy)%nat.
Proof.
  unfold cells2. assert (length (zrange sx) = sx) as E by (unfold zrange; by rewrite fmap_length, seq_length).
  revert E. generalize (zrange sx). intros l <-. induction l as [|a l IH]; [done|]. csimpl.
  rewrite app_length, IH, fmap_length. unfold zrange. rewrite fmap_length, seq_length. done.
Qed.
Lemma nbrs2_spec c x : x ∈ nbrs2 c <-> adj8 c x.
Proof.
  unfold nbrs2, adj8. rewrite elem_of_list_fmap. destruct c as [cx cy], x as [x y]. simpl. split.
  - intros ([dx dy]&[= -> ->]&Hd). unfold dirs2 in Hd.
    repeat (apply elem_of_cons in Hd as [[= -> ->]|Hd]; [simpl; lia|]). set_solver.
  - intros Hm. exists (x - cx, y - cy). split; [f_equal; simpl; lia|].
    assert (-1 <= x - cx <= 1 /\ -1 <= y - cy <= 1 /\ (x - cx <> 0 \/ y - cy <> 0)) as (A&B&D) by lia.
    assert (x - cx = -1 \/ x - cx = 0 \/ x - cx = 1) as HA by lia.
    assert (y - cy = -1 \/ y - cy = 0 \/ y - cy = 1) as HB by lia.
    destruct HA as [Ea|[Ea|Ea]], HB as [Eb|[Eb|Eb]]; rewrite Ea, Eb; try (exfalso; lia); unfold dirs2;
      (eapply bool_decide_eq_true_1; vm_compute; reflexivity).
Qed.
Lemma int2 c x : inb2 sx sy c = true -> onb2 sx sy c = false -> x ∈ nbrs2 c -> inb2 sx sy x = true.
Proof. rewrite nbrs2_spec. unfold inb2, onb2, adj8. lia. Qed.
End two.

(** * 3D *)
Section three.
Context (sx sy sz : nat).
Lemma inb3_spec c : inb3 sx sy sz c = true <-> inside3 sx sy sz c.
Proof. unfold inb3, inside3. lia. Qed.
Lemma cells3_spec c : c ∈ cells3 sx sy sz <-> inb3 sx sy sz c = true.
Proof.
  rewrite inb3_spec. unfold cells3, inside3. rewrite elem_of_list_bind. destruct c as [[x y] z]. simpl. split.
  - intros (x'&Hin&Hx). apply elem_of_list_bind in Hin as (y'&Hin&Hy). apply elem_of_list_fmap in Hin as (z'&[= <- <- <-]&Hz).
    apply elem_zrange in Hx, Hy, Hz. done.
  - intros (Hx&Hy&Hz). exists x. split; [|by apply elem_zrange]. apply elem_of_list_bind. exists y. split; [|by apply elem_zrange].
    apply elem_of_list_fmap. exists z. split; [done|]. by apply elem_zrange.
Qed.
Lemma cells3_NoDup : NoDup (cells3 sx sy sz).
Proof.
  unfold cells3. assert (forall l : list Z, NoDup l -> NoDup (x ← l; y ← zrange sy; (λ z : Z, (x, y, z)) <$> zrange sz)) as Hg; [|apply Hg, NoDup_zrange].
  intros l Hl. induction Hl as [|a l Ha Hl IH]; [apply NoDup_nil; done|]. simpl. apply NoDup_app. split_and!.
  - apply (NoDup_bind_pair (fun _ => zrange sz) (fun y z => (a, y, z))); auto using NoDup_zrange.
    intros ? ? ? ? E. by injection E.
  - intros c Hc Hc'. apply elem_of_list_bind in Hc as (y&Hc&_). apply elem_of_list_fmap in Hc as (z&->&_).
    apply elem_of_list_bind in Hc' as (a'&Hc'&Ha'). apply elem_of_list_bind in Hc' as (y'&Hc'&_).
    apply elem_of_list_fmap in Hc' as (z'&[= -> -> ->]&_). done.
  - done.
Qed.
Lemma cells3_length : length (cells3 sx sy sz) = (sx * sy * sz)%nat.
Proof.
  unfold cells3. assert (forall n, length (zrange n) = n) as E by (intros; unfold zrange; by rewrite fmap_length, seq_length).
  rewrite <- (E sx) at 2. generalize (zrange sx). intros l. induction l as [|a l IH]; [done|]. csimpl.
  rewrite app_length, IH.
  assert (length (y ← zrange sy; (λ z : Z, (a, y, z)) <$> zrange sz) = sy * sz)%nat as ->; [|nia].
  rewrite <- (E sy) at 2. generalize (zrange sy). intros k. induction k as [|b k IHk]; [done|]. csimpl.
  rewrite app_length, IHk, fmap_length, E. nia.
Qed.
Lemma nbrs3_spec c x : x ∈ nbrs3 c <-> adj26 c x.
Proof.
  unfold nbrs3, adj26. rewrite elem_of_list_fmap. destruct c as [[cx cy] cz], x as [[x y] z]. simpl. split.
  - intros ([[dx dy] dz]&[= -> -> ->]&Hd). unfold dirs3 in Hd.
    repeat (apply elem_of_cons in Hd as [[= -> -> ->]|Hd]; [simpl; lia|]). set_solver.
  - intros Hm. exists (x - cx, y - cy, z - cz). split; [f_equal; [f_equal|]; simpl; lia|].
    assert (x - cx = -1 \/ x - cx = 0 \/ x - cx = 1) as HA by lia.
    assert (y - cy = -1 \/ y - cy = 0 \/ y - cy = 1) as HB by lia.
    assert (z - cz = -1 \/ z - cz = 0 \/ z - cz = 1) as HC by lia.
    destruct HA as [Ea|[Ea|Ea]], HB as [Eb|[Eb|Eb]], HC as [Ec|[Ec|Ec]]; rewrite Ea, Eb, Ec; try (exfalso; lia);
      unfold dirs3; (eapply bool_decide_eq_true_1; vm_compute; reflexivity).
Qed.
Lemma int3 c x : inb3 sx sy sz c = true -> onb3 sx sy sz c = false -> x ∈ nbrs3 c -> inb3 sx sy sz x = true.
Proof. rewrite nbrs3_spec. unfold inb3, onb3, adj26. lia. Qed.
End three.
