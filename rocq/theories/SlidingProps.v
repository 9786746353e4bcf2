(** C09: the sliding bucket queue (CSlidingBucket). *)
From Coq Require Import Sorting.Sorted.
From Verif Require Import Base SlidingModel SlidingSpec SlidingProofs.
Local Open Scope Z_scope.

(** Every history of calls in which no insertion finds its bucket full runs without undefined behaviour and gives exactly the answers
    of the stable priority queue of SlidingSpec.v: an insertion is refused (exception, nothing changed) iff its priority is outside the
    window [last popped priority, last popped priority + number of buckets), popminelement and getminelement give the first element,
    empty tells whether there is none.  Fixed-size (init <= 0) and growing buckets (init > 0) alike. *)
Theorem C09_history n size init os : 1 <= n -> 1 <= size -> roomy n size w0 os ->
  exists b', srun (new_sbk n size init) os = Ok ((wrun n w0 os).1, b').
Proof.
  intros Hn Hs Hr. destruct (new_srep n size init Hn Hs) as (R&EN&ES). destruct (srun_spec n size os _ _ R EN ES Hr) as (b'&E&_). eauto.
Qed.

(** Buckets are never full when at most [size] elements are inserted. *)
Fixpoint inserts (os : list sop) : nat := match os with [] => 0 | SInsert _ _ :: os => S (inserts os) | _ :: os => inserts os end.
Lemma roomy_few n size os : forall w, 0 <= wk w -> Z.of_nat (length (wq w)) + wk w + Z.of_nat (inserts os) <= size -> roomy n size w os.
Proof.
  induction os as [|o os IH]; intros w Hk Hl; [done|].
  assert (inserts (o :: os) = (match o with SInsert _ _ => 1 | _ => 0 end + inserts os)%nat) as Ei.
  { by destruct o. }
  assert (forall p s q, length (place p s q) = S (length q)) as Hpl. { intros p s q. induction q as [|e q IHq]; [done|]. cbn. destruct (p <? e.1); cbn; [done|by rewrite IHq]. }
  rewrite Ei in Hl. split.
  - destruct o as [s p| | | | |]; try done. intros _. unfold slots.
    assert (length (atprio p (wq w)) <= length (wq w))%nat. { unfold atprio. rewrite fmap_length. apply filter_length. }
    destruct (p =? wF w); lia.
  - destruct o as [s p| | | | |]; cbn [wstep].
    + destruct (_ && _); apply IH; cbn; rewrite ?Hpl; lia.
    + destruct (wq w) as [|[p s] q] eqn:Eq; cbn [snd]; [apply IH; rewrite ?Eq; cbn in *; lia|].
      apply IH; cbn [wk wq] in *; cbn [length] in Hl; destruct q as [|[p' s'] q']; cbn [length] in *; repeat case_match; lia.
    + apply IH; cbn; lia.
    + apply IH; cbn; lia.
    + apply IH; cbn; lia.
    + apply IH; cbn; lia.
Qed.
Theorem C09_few_insertions n size init os : 1 <= n -> 1 <= size -> Z.of_nat (inserts os) <= size ->
  exists b', srun (new_sbk n size init) os = Ok ((wrun n w0 os).1, b').
Proof. intros. apply C09_history; [done..|]. apply roomy_few; cbn; lia. Qed.

(** The elements accepted and the elements popped in a history, read off the calls and the answers. *)
Fixpoint accepted (os : list sop) (rs : list sans) : list (Z * nat) :=
  match os, rs with
  | SInsert s p :: os, ADone :: rs => (p, s) :: accepted os rs
  | _ :: os, _ :: rs => accepted os rs
  | _, _ => []
  end.
Fixpoint popped (os : list sop) (rs : list sans) : list nat :=
  match os, rs with
  | SPop :: os, AState (Some s) :: rs => s :: popped os rs
  | _ :: os, _ :: rs => popped os rs
  | _, _ => []
  end.
Lemma wrun_order n os : forall w, Forall (fun o => o <> SReset) os -> StronglySorted le1 (wq w) -> Forall (fun e => wF w <= e.1) (wq w) ->
  exists out rest, popped os (wrun n w os).1 = out.*2 /\ StronglySorted le1 (out ++ rest) /\ Forall (fun e => wF w <= e.1) (out ++ rest) /\
    (forall p, atprio p (wq w ++ accepted os (wrun n w os).1) = atprio p (out ++ rest)) /\ rest = wq (wrun n w os).2.
Proof.
  assert (forall p l1 l2, atprio p (l1 ++ l2) = atprio p l1 ++ atprio p l2) as Happ by (intros; unfold atprio; by rewrite filter_app, fmap_app).
  induction os as [|o os IH]; intros w Hnr Hs Hf.
  { exists [], (wq w). cbn. split_and!; try done. intros p. by rewrite app_nil_r. }
  apply Forall_cons in Hnr as [Ho Hnr]. destruct o as [s p| | | | |]; cbn [wrun wstep].
  - destruct ((0 <=? p - wF w) && (p - wF w <? n)) eqn:Ew; cbn [fst snd].
    + destruct (IH (mkW (wF w) (place p s (wq w)) (wk w) (wold w && negb (p =? wF w)))) as (out&rest&H1&H2&H3&H4&H5); [done|by apply place_sorted| |].
      { apply Forall_forall. intros e He. apply place_in in He as [->|He]; [cbn; lia|]. cbn. by eapply Forall_forall in Hf. }
      exists out, rest. cbn [popped accepted]. split_and!; try done. intros p'. rewrite <- H4. cbn [wq]. rewrite !Happ. rewrite atprio_cons. cbn [fst snd].
      destruct (p =? p') eqn:E; [assert (p = p') as <- by lia; rewrite place_atprio by done; by rewrite <- app_assoc|]. rewrite place_atprio_ne by lia. done.
    + destruct (IH w Hnr Hs Hf) as (out&rest&H). exists out, rest. exact H.
  - destruct (wq w) as [|[p s] q] eqn:Eq; cbn [fst snd].
    + rewrite <- Eq in Hs, Hf. destruct (IH w Hnr Hs Hf) as (out&rest&H). rewrite Eq in H. exists out, rest. exact H.
    + set (w' := mkW _ _ _ _). apply StronglySorted_inv in Hs as [Hs1 Hs2]. apply Forall_cons in Hf as [Hf1 Hf2].
      destruct (IH w') as (out&rest&H1&H2&H3&H4&H5); [done|done|exact Hs2|]. cbn [wF w' wq] in *.
      exists ((p, s) :: out), rest. cbn [popped accepted]. split_and!; try done.
      * by rewrite H1.
      * constructor; [done|exact H3].
      * constructor; [done|]. eapply Forall_impl; [exact H3|]. cbn in *. intros; lia.
      * intros p'. cbn [app]. rewrite !atprio_cons. by rewrite H4.
  - destruct (IH (mkW (wF w) (wq w) (wk w) match wq w with [] => wold w | _ => false end) Hnr Hs Hf) as (out&rest&H). exists out, rest. exact H.
  - destruct (IH w Hnr Hs Hf) as (out&rest&H). exists out, rest. exact H.
  - destruct (IH w Hnr Hs Hf) as (out&rest&H). exists out, rest. exact H.
  - done.
Qed.
(** In every such history (without reset) the popped elements are, with their priorities, a list [out] in non-decreasing order of
    priority; nothing is lost, invented or popped twice, and elements of equal priority come out in the order in which they went in:
    for each priority, the elements accepted are those popped followed by those still inside. *)
Theorem C09_order n size init os rs b' : 1 <= n -> 1 <= size -> roomy n size w0 os -> Forall (fun o => o <> SReset) os ->
  srun (new_sbk n size init) os = Ok (rs, b') ->
  exists out rest : list (Z * nat), popped os rs = out.*2 /\ StronglySorted (fun e e' => e.1 <= e'.1) (out ++ rest) /\
    (forall p, atprio p (accepted os rs) = atprio p out ++ atprio p rest) /\ (sempty b' = true <-> rest = []).
Proof.
  intros Hn Hs Hr Hnr Hrun. destruct (new_srep n size init Hn Hs) as (R&EN&ES). destruct (srun_spec n size os _ _ R EN ES Hr) as (b1&E&R1).
  rewrite Hrun in E. injection E as -> <-. destruct (wrun_order n os w0) as (out&rest&H1&H2&H3&H4&H5); [done|constructor|constructor|].
  exists out, rest. split_and!; try done.
  - intros p. specialize (H4 p). cbn [wq w0 app] in H4. rewrite H4. unfold atprio. by rewrite filter_app, fmap_app.
  - rewrite (srep_empty _ _ R1), bool_decide_eq_true, H5. done.
Qed.

(** A history that meets the hypotheses (growing buckets, the ring wraps around, an exception is caught). *)
Definition ex_ops : list sop :=
  [SInsert 1 2; SInsert 2 1; SInsert 3 2; SInsert 9 7; SPop; SMinKey; SInsert 4 3; SPop; SPop; SInsert 5 4; SInsert 6 2; SPop; SPop; SPop; SPop; SEmpty].
Example hypotheses_met : roomy 3 7 w0 ex_ops /\ Forall (fun o => o <> SReset) ex_ops /\ exists b', srun (new_sbk 3 7 1) ex_ops =
  Ok ([ADone; ADone; ADone; AInvalid; AState (Some 2%nat); AKey 2; ADone; AState (Some 1%nat); AState (Some 3%nat); ADone; ADone; AState (Some 6%nat); AState (Some 4%nat); AState (Some 5%nat); AState None; ABool true], b').
Proof. split_and!; [|repeat constructor; done|eexists; vm_compute; reflexivity]. apply roomy_few; [done|by vm_compute]. Qed.

(** A full bucket throws, but counts the refused element: the next insertion writes past the end of the bucket. *)
Theorem C09_after_full_refuted : exists b', srun (new_sbk 4 2 0) [SInsert 1 0; SInsert 2 0; SInsert 3 0] = Ok ([ADone; ADone; AFull], b') /\ sinsert b' 4 0 = UB.
Proof. eexists. split; vm_compute; reflexivity. Qed.
(** getminkey is not always the least priority inside: it may be a lower value left over from before. *)
Theorem C09_min_key_refuted : exists b', srun (new_sbk 10 10 0) [SInsert 1 5; SMinKey; SGetMin; SMinKey] = Ok ([ADone; AKey 0; AState (Some 1%nat); AKey 5], b').
Proof. eexists. vm_compute. reflexivity. Qed.

Print Assumptions C09_history.
Print Assumptions C09_few_insertions.
Print Assumptions C09_order.
Print Assumptions C09_after_full_refuted.
Print Assumptions C09_min_key_refuted.
