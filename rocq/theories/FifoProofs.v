From Coq Require Import ZifyBool ZifyNat.
From Verif Require Import Base FifoModel FifoSpec.
Ltac Zify.zify_post_hook ::= Z.div_mod_to_equations.

Section proofs.
Context {T : Type}.

(** slot of the i-th oldest element *)
Definition slot (f : fifo T) (i : nat) : nat :=
  if decide (ftail f + i < fsize f) then ftail f + i else ftail f + i - fsize f.

Definition frep (f : fifo T) (l : list T) : Prop :=
  ftail f < fsize f /\ length l < fsize f /\ fhead f = slot f (length l) /\
  (forall i v, l !! i = Some v -> q f !! slot f i = Some v).

Lemma new_fifo_frep n : 0 < n -> frep (new_fifo n) [].
Proof.
  intros Hn. split_and!; simpl; try lia.
  - unfold slot; simpl. destruct (decide _); lia.
  - done.
Qed.

Lemma fifo_empty_spec f l : frep f l -> (fifo_empty f = true <-> l = []).
Proof.
  intros (A&B&C&D). unfold fifo_empty. rewrite Nat.eqb_eq, C. unfold slot.
  split; [|intros ->; simpl; destruct (decide _); lia].
  intros H. destruct l; [done|]. simpl in *. destruct (decide _); lia.
Qed.

Lemma fifo_insert_ok f l v : frep f l -> length l < fsize f - 1 ->
  exists f', fifo_insert f v = Ok (true, f') /\ frep f' (l ++ [v]) /\ fsize f' = fsize f.
Proof.
  intros (A&B&C&D) Hlen. unfold fifo_insert.
  assert (fhead f < fsize f) as Hh. { rewrite C. unfold slot. destruct (decide _); lia. }
  assert ((ftail f =? fhead f + 1)%nat || ((ftail f =? 0)%nat && (fhead f + 1 =? fsize f)%nat) = false) as ->.
  { rewrite C. unfold slot. destruct (decide _); lia. }
  destruct (Nat.ltb_spec (fhead f) (fsize f)); [|lia].
  eexists; split; [done|]. split; [|done].
  split_and!; simpl; try lia.
  - rewrite app_length. simpl. lia.
  - rewrite app_length. simpl. unfold slot in *; simpl.
    destruct (Nat.eqb_spec (fhead f + 1) (fsize f)); repeat destruct (decide _); lia.
  - intros i w Hw. change (slot _ i) with (slot f i).
    apply lookup_app_Some in Hw as [Hw|[Hi Hw]];
      [apply lookup_lt_Some in Hw as Hi | apply list_lookup_singleton_Some in Hw as [Hi2 <-]; assert (i = length l) as -> by lia].
    + rewrite lookup_insert_ne; [by apply D|]. rewrite C. unfold slot.
      repeat destruct (decide _); lia.
    + rewrite <- C. by rewrite lookup_insert.
Qed.
Lemma fifo_insert_full f l v : frep f l -> length l = fsize f - 1 ->
  fifo_insert f v = Ok (false, f).
Proof.
  intros (A&B&C&D) Hlen. unfold fifo_insert.
  assert ((ftail f =? fhead f + 1)%nat || ((ftail f =? 0)%nat && (fhead f + 1 =? fsize f)%nat) = true) as ->; [|done].
  rewrite C, Hlen. unfold slot. destruct (decide _); lia.
Qed.
Lemma fifo_remove_ok f v l : frep f (v :: l) ->
  exists f', fifo_remove f = Ok (Some v, f') /\ frep f' l /\ fsize f' = fsize f.
Proof.
  intros H. pose proof (fifo_empty_spec _ _ H) as He. destruct H as (A&B&C&D).
  unfold fifo_remove. unfold fifo_empty in He.
  destruct (fhead f =? ftail f)%nat; [by destruct He as [He _]; specialize (He eq_refl)|].
  destruct (Nat.ltb_spec (ftail f) (fsize f)); [|lia].
  pose proof (D 0 v eq_refl) as D0. unfold slot in D0. rewrite Nat.add_0_r in D0.
  destruct (decide _); [|lia]. rewrite D0. eexists; split; [done|]. split; [|done].
  simpl in *. split_and!; simpl; try lia.
  - destruct (Nat.eqb_spec (ftail f + 1) (fsize f)); lia.
  - rewrite C. unfold slot; simpl.
    destruct (Nat.eqb_spec (ftail f + 1) (fsize f)); repeat destruct (decide _); lia.
  - intros i w Hw. rewrite <- (D (S i) w Hw). f_equal. unfold slot; simpl.
    assert (i < length l) by (eapply lookup_lt_Some; done).
    destruct (Nat.eqb_spec (ftail f + 1) (fsize f)); repeat destruct (decide _); lia.
Qed.
Lemma fifo_remove_empty f : frep f [] -> fifo_remove f = Ok (None, f).
Proof.
  intros H. pose proof (fifo_empty_spec _ _ H) as He. unfold fifo_remove. unfold fifo_empty in He.
  destruct (fhead f =? ftail f)%nat; [done|]. by destruct He as [_ He]; specialize (He eq_refl).
Qed.
Lemma fifo_clear_spec f l : frep f l -> frep (fifo_clear f) [] /\ fsize (fifo_clear f) = fsize f.
Proof.
  intros (A&B&C&D). split; [|done]. split_and!; simpl; try lia; try done.
  unfold slot; simpl. destruct (decide _); lia.
Qed.
End proofs.
Lemma fexec_spec {T} (f : fifo T) l o : frep f l ->
  exists r f' l', fexec f o = Ok (r, f') /\ frep f' l' /\ fsize f' = fsize f /\
    fspec (fsize f - 1) l o r l' /\ length l' <= fsize f - 1.
Proof.
  intros H. assert (length l <= fsize f - 1) as Hle by (destruct H as (?&?&_); lia).
  destruct o as [v| | |]; unfold fexec.
  - destruct (decide (length l = fsize f - 1)) as [E|E].
    + rewrite (fifo_insert_full f l v H E). eexists _, f, l. split; [done|].
      split; [done|]. split; [done|]. split; [|done]. split; [done|]. intros ?. lia.
    + destruct (fifo_insert_ok f l v H ltac:(lia)) as (f'&->&H'&Hs).
      eexists _, f', (l ++ [v]). split; [done|]. split; [done|]. split; [done|]. split; [split; [intros ?; lia|done]|].
      rewrite app_length. simpl. lia.
  - destruct l as [|v l].
    + rewrite (fifo_remove_empty f H). eexists _, f, []. done.
    + destruct (fifo_remove_ok f v l H) as (f'&->&H'&Hs). eexists _, f', l.
      split_and!; try done. simpl in Hle. lia.
  - eexists _, f, l. split_and!; try done. exists (fifo_empty f). by rewrite (fifo_empty_spec f l H).
  - destruct (fifo_clear_spec f l H). eexists _, _, []. split_and!; try done. simpl. lia.
Qed.
Lemma frun_spec {T} os : forall (f : fifo T) l, frep f l ->
  exists rs f' l', frun f os = Ok (rs, f') /\ frep f' l' /\ fspec_run (fsize f - 1) l os rs l' /\
    length l' <= fsize f - 1.
Proof.
  induction os as [|o os IH]; intros f l H.
  { exists [], f, l. split; [done|]. split; [done|]. split; [constructor|].
    destruct H as (?&?&_); lia. }
  destruct (fexec_spec f l o H) as (r&f1&l1&E1&H1&Hs1&S1&_).
  destruct (IH f1 l1 H1) as (rs&f2&l2&E2&H2&S2&L2). rewrite Hs1 in S2, L2.
  exists (r :: rs), f2, l2. split_and!; try done.
  - cbn [frun]. rewrite E1. cbn [obind fst snd]. rewrite E2. done.
  - by econstructor.
Qed.
Lemma fifo_history {T} n (os : list (fop T)) : 0 < n ->
  exists rs f l, frun (new_fifo n) os = Ok (rs, f) /\ fspec_run (n - 1) [] os rs l /\ length l <= n - 1.
Proof.
  intros Hn. destruct (frun_spec os _ _ (new_fifo_frep (T:=T) n Hn)) as (rs&f&l&E&_&S&L).
  exists rs, f, l. done.
Qed.

