(** C16, C17. *)
From Verif Require Import Base MdpModel MdpSpec MdpProofs.
Local Open Scope Z_scope.

(** C16: the answer is reachability under the policy; the call always terminates, never touches
    memory outside the arrays, and throws only if some reachable state is malformed. *)
Theorem C16_path_exists_decides_reachability : forall arr src tgt, (src < length arr)%nat ->
  match PathExists arr src tgt with
  | Ok true => rtc (policy_step arr) src tgt
  | Ok false => ~ rtc (policy_step arr) src tgt /\ forall i, rtc (policy_step arr) src i -> ~ malformed arr i
  | Exn _ => exists i, rtc (policy_step arr) src i /\ malformed arr i
  | UB => False
  | OOF => False
  end.
Proof. exact path_exists_spec. Qed.
Print Assumptions C16_path_exists_decides_reachability.

(** Hence for chains without malformed states it is an exact decision procedure. *)
Theorem C16_path_exists_iff : forall arr src tgt, (src < length arr)%nat ->
  (forall i, rtc (policy_step arr) src i -> ~ malformed arr i) ->
  exists b, PathExists arr src tgt = Ok b /\ (b = true <-> rtc (policy_step arr) src tgt).
Proof.
  intros arr src tgt Hs Hm. pose proof (path_exists_spec arr src tgt Hs) as H.
  destruct (PathExists arr src tgt) as [[]|e| |]; [| | |done|done].
  - exists true. by split.
  - exists false. split; [done|]. split; [done|]. intros Hr. by destruct H.
  - destruct H as (i&Hi&Hmi). by destruct (Hm i Hi).
Qed.
Print Assumptions C16_path_exists_iff.

(** A chain with a cycle 0 -> 1 -> 0, 1 -> 2, and an unreachable state 3. *)
Definition demo_chain : list mstate :=
  [mkState 10 [mkAction 0 [(11,1,1)]] []; mkState 11 [mkAction 0 [(10,1,1);(12,1,1)]] [];
   mkState 12 [] []; mkState 13 [mkAction 0 [(10,1,1)]] []].
Example path_demo : PathExists demo_chain 0 2 = Ok true /\ PathExists demo_chain 0 3 = Ok false /\
  PathExists [mkState 1 [mkAction 0 [(7,1,1)]] []] 0 5 = Exn tt.
Proof. vm_compute. done. Qed.

(** C17: for every history of AddPred/RemovePred the list is the set, without duplicates;
    ContainsPred answers membership; RemovePred tells whether it removed something. *)
Theorem C17_preds_are_a_set : forall ops,
  let l := foldl run_pred [] ops in
  NoDup l /\ (forall x, x ∈ l <-> x ∈ foldl spec_pred ∅ ops) /\
  (forall x, ContainsPred l x = true <-> x ∈ foldl spec_pred ∅ ops) /\
  (forall x, (RemovePred l x).1 = true <-> x ∈ foldl spec_pred ∅ ops).
Proof.
  intros ops l. destruct (preds_history ops [] ∅ ltac:(apply NoDup_nil; done) ltac:(set_solver)) as [H1 H2].
  fold l in H1, H2. split_and!; [done|done| |].
  - intros x. by rewrite contains_spec.
  - intros x. destruct (remove_loop l x H1 l 0 eq_refl ltac:(set_solver)) as (_&_&H3). rewrite <- H2. exact H3.
Qed.
Print Assumptions C17_preds_are_a_set.
Example preds_demo : foldl run_pred [] [PAdd 3; PAdd 5; PAdd 3; PAdd 7; PRemove 3; PRemove 9; PAdd 3] = [7; 5; 3].
Proof. reflexivity. Qed.

(** C17: first match or failure. *)
Theorem C17_GetIndofOutcome_first_match : forall a id,
  match GetIndofOutcome a id with
  | Some i => aSuccs a !! i = Some id /\ forall j, (j < i)%nat -> aSuccs a !! j <> Some id
  | None => id ∉ aSuccs a
  end.
Proof.
  intros a id. pose proof (ind_outcome_spec (aSuccs a) id 0) as H. unfold GetIndofOutcome.
  destruct (ind_of_outcome_loop (aSuccs a) 0 id); [rewrite Nat.sub_0_r in H; by destruct H|done].
Qed.
Print Assumptions C17_GetIndofOutcome_first_match.
Theorem C17_GetAction_first_match : forall s id,
  match GetAction s id with
  | Some a => exists i, msActs s !! i = Some a /\ aID a = id /\
                forall j b, (j < i)%nat -> msActs s !! j = Some b -> aID b <> id
  | None => forall a, a ∈ msActs s -> aID a <> id
  end.
Proof. intros s id. exact (getaction_spec (msActs s) id). Qed.
Print Assumptions C17_GetAction_first_match.
(** C17: an outcome of maximal probability (probabilities are nonnegative); -1 iff there is none. *)
Theorem C17_most_likely_outcome_is_maximal : forall a, (forall o, o ∈ aOut a -> 0 <= o.2) ->
  match GetIndofMostLikelyOutcome a with
  | Some i => exists o, aOut a !! i = Some o /\ forall o', o' ∈ aOut a -> o'.2 <= o.2
  | None => aOut a = []
  end.
Proof.
  intros a Ha. pose proof (most_likely_spec (aOut a) 0 0 None) as H. unfold GetIndofMostLikelyOutcome.
  destruct (most_likely_loop (aOut a) 0 0 None) as [i|].
  - destruct H as [[? _]|(_&o&Ho&_&Hm)]; [done|]. rewrite Nat.sub_0_r in Ho. eauto.
  - destruct H as [_ H]. destruct (aOut a) as [|o os]; [done|].
    specialize (Ha o ltac:(set_solver)). specialize (H o ltac:(set_solver)). lia.
Qed.
Print Assumptions C17_most_likely_outcome_is_maximal.
Example most_likely_demo : GetIndofMostLikelyOutcome (mkAction 1 [(4,1,2);(5,1,6);(6,1,2)]) = Some 1%nat.
Proof. reflexivity. Qed.
