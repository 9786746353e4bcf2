(** C08: the bucket priority queue (CBucket). *)
From Verif Require Import Base BucketModel BucketSpec BucketProofs.
Local Open Scope Z_scope.

(** Every history of calls that respects [ballowed] (see BucketSpec.v) runs without exception or undefined behaviour, and every
    answer is that of a set of states with priorities: popminelement removes and returns a state of least priority (None iff the
    queue is empty), getminelement returns one without removing it, getminpriority is the least priority present (INFINITECOST if empty), empty says whether the queue is empty. *)
Theorem C08_history f mx os : 0 <= mx - f + 1 -> ballowed_all (mx - f + 1) ∅ false os ->
  exists b rs b' m d, new_bucket f mx = Ok b /\ brun b os = Ok (rs, b') /\ bhist (mx - f + 1) ∅ false os rs m d.
Proof.
  intros H Ha. destruct (new_bucket_spec f mx H) as (b&Hb&R&E). rewrite <- E in Ha |- *.
  destruct (brun_spec os b ∅ false R Ha) as (rs&b'&m&d&E2&Hh&_). by exists b, rs, b', m, d.
Qed.
(** The same after reset, whatever happened before it. *)
Theorem C08_after_reset f0 mx0 b0 os0 rs0 b1 f mx os :
  0 <= mx0 - f0 + 1 -> new_bucket f0 mx0 = Ok b0 -> ballowed_all (mx0 - f0 + 1) ∅ false os0 -> brun b0 os0 = Ok (rs0, b1) ->
  0 <= mx - f + 1 -> ballowed_all (mx - f + 1) ∅ false os ->
  exists b rs b' m d, breset b1 f mx = Ok b /\ brun b os = Ok (rs, b') /\ bhist (mx - f + 1) ∅ false os rs m d.
Proof.
  intros H0 Hn Ha0 Hr0 H Ha. destruct (new_bucket_spec f0 mx0 H0) as (b&Hb&R&E). assert (b = b0) as -> by congruence. rewrite <- E in Ha0.
  destruct (brun_spec os0 b0 ∅ false R Ha0) as (rs&b'&m&d&E2&_&[Rb _]). assert (b' = b1) as -> by congruence.
  destruct (breset_spec b1 f mx) as (b2&Hb2&R2&E3); [|done|]. { intros Hnil. destruct Rb as [Hl _ _ _ _ _]. rewrite Hnil in Hl. cbn in Hl. lia. }
  rewrite <- E3 in Ha |- *. destruct (brun_spec os b2 ∅ false R2 Ha) as (rs2&b'2&m2&d2&E4&Hh&_). by exists b2, rs2, b'2, m2, d2.
Qed.

(** A history that meets the hypotheses: two states in the overflow bucket, one at infinity, one with a bucket of its own. *)
Definition ex_ops : list bop :=
  [BInsert 1 100; BInsert 2 INFINITECOST; BInsert 3 50; BInsert 4 2; BMinPriority; BRemove 4 2; BGetMin; BPop; BMinPriority; BInsert 4 1; BPop; BPop; BPop; BPop; BEmpty].
Lemma all_insert top m d s p os : ballowed top m d (BInsert s p) -> ballowed_all top (<[s := p]> m) d os -> ballowed_all top m d (BInsert s p :: os).
Proof. intros. split; [done|]. intros a m' d' H'. by inversion H'; subst. Qed.
Lemma all_remove top m d s p os : m !! s = Some p -> ballowed_all top (delete s m) (out top d p) os -> ballowed_all top m d (BRemove s p :: os).
Proof. intros. split; [done|]. intros a m' d' H'. by inversion H'; subst. Qed.
Lemma all_prio top m d os : ballowed_all top m d os -> ballowed_all top m d (BMinPriority :: os).
Proof. intros. split; [done|]. intros a m' d' H'. by inversion H'; subst. Qed.
Lemma all_get top m d os : ballowed_all top m d os -> ballowed_all top m d (BGetMin :: os).
Proof. intros. split; [done|]. intros a m' d' H'. by inversion H'; subst. Qed.
Lemma all_empty top m d os : ballowed_all top m d os -> ballowed_all top m d (BEmpty :: os).
Proof. intros. split; [done|]. intros a m' d' H'. by inversion H'; subst. Qed.
Lemma all_pop_none top d os : ballowed_all top ∅ d os -> ballowed_all top ∅ d (BPop :: os).
Proof. intros. split; [done|]. intros a m' d' H'. inversion H'; subst; [done|]. match goal with H : is_min _ _ _ |- _ => by destruct H end. Qed.
Lemma all_pop top m d s p os : m !! s = Some p -> bool_decide (map_Forall (fun s' p' => p < p' \/ s' = s) m) = true ->
  ballowed_all top (delete s m) (out top d p) os -> ballowed_all top m d (BPop :: os).
Proof.
  intros Hs Hall Hos. apply bool_decide_eq_true in Hall. split; [done|]. intros a m' d' H'. inversion H'; subst; [done|].
  match goal with H : is_min _ _ _ |- _ => destruct H as [H1 H2] end. specialize (H2 _ _ Hs). destruct (Hall _ _ H1) as [?|<-]; [lia|]. replace p0 with p by congruence. done.
Qed.
Example hypotheses_met : ballowed_all (5 - 0 + 1) ∅ false ex_ops /\ exists b b', new_bucket 0 5 = Ok b /\ brun b ex_ops =
  Ok ([BDone; BDone; BDone; BDone; BPrio 2; BDone; BState (Some 3%nat); BState (Some 3%nat); BPrio 100; BDone; BState (Some 4%nat); BState (Some 1%nat); BState (Some 2%nat); BState None; BBool true], b').
Proof.
  split; [|do 2 eexists; split; vm_compute; reflexivity]. unfold ex_ops.
  Ltac step l := apply l; [vm_compute; by repeat split|].
  do 4 step all_insert. apply all_prio. step all_remove. apply all_get. apply (all_pop _ _ _ 3 50); [by vm_compute|by vm_compute|]. apply all_prio. step all_insert.
  apply (all_pop _ _ _ 4 1); [by vm_compute|by vm_compute|]. apply (all_pop _ _ _ 1 100); [by vm_compute|by vm_compute|]. apply (all_pop _ _ _ 2 INFINITECOST); [by vm_compute|by vm_compute|].
  match goal with |- ballowed_all _ ?m _ _ => replace m with (∅ : gmap nat Z) by (symmetry; apply map_to_list_empty_iff; by vm_compute) end. apply all_pop_none, all_empty. done.
Qed.

(** Without the condition on the overflow bucket the queue gives wrong answers: A is inserted with priority 100 and B with 200, A is
    popped, C is inserted with priority 50; the queue then reports the minimum 200 instead of 50, and pops B before C. *)
Theorem C08_overflow_reuse_refuted :
  exists b b', new_bucket 0 5 = Ok b /\
    brun b [BInsert 1 100; BInsert 2 200; BPop; BInsert 3 50; BMinPriority; BPop] = Ok ([BDone; BDone; BState (Some 1%nat); BDone; BPrio 200; BState (Some 2%nat)], b').
Proof. do 2 eexists. split; vm_compute; reflexivity. Qed.
(** makeemptybucketV does not empty the queue: after it, the first insertion brings an old state back, which can then not be popped (exception). *)
Theorem C08_makeempty_refuted :
  exists b b1 b2, new_bucket 0 5 = Ok b /\ brun b [BInsert 1 3] = Ok ([BDone], b1) /\
    brun (makeemptybucketV b1) [BEmpty; BInsert 2 3; BGetMin] = Ok ([BBool true; BDone; BState (Some 1%nat)], b2) /\ bpop b2 = Exn BRange.
Proof. do 3 eexists. split_and!; vm_compute; reflexivity. Qed.
(** The first priority given to the constructor is not used: a priority inside the announced range leaves the bucket array. *)
Theorem C08_first_priority_refuted : exists b, new_bucket (-5) 5 = Ok b /\ brun b [BInsert 1 (-3)] = UB.
Proof. eexists. split; vm_compute; reflexivity. Qed.

Print Assumptions C08_history.
Print Assumptions C08_after_reset.
Print Assumptions C08_overflow_reuse_refuted.
Print Assumptions C08_makeempty_refuted.
Print Assumptions C08_first_priority_refuted.
