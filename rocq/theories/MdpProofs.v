From Verif Require Import Base MdpModel MdpSpec.
Local Open Scope Z_scope.

Lemma most_likely_spec os : forall k h ml,
  match most_likely_loop os k h ml with
  | None => ml = None /\ forall o, o ∈ os -> o.2 < h
  | Some i => (ml = Some i /\ (forall o, o ∈ os -> o.2 < h)) \/
      (k <= i)%nat /\ exists o, os !! (i - k)%nat = Some o /\ h <= o.2 /\ forall o', o' ∈ os -> o'.2 <= o.2
  end.
Proof.
  induction os as [|o os IH]; intros k h ml; simpl.
  - destruct ml; [left|]; split; auto; intros; set_solver.
  - destruct (Z.geb_spec (o.2) h).
    + specialize (IH (S k) (o.2) (Some k)). destruct (most_likely_loop os (S k) (o.2) (Some k)) as [i|].
      * right. destruct IH as [[[= ->] Hlt]|(Hi&o1&Ho&Hge&Hmax)].
        -- split; [done|]. exists o. rewrite Nat.sub_diag. simpl. split_and!; auto.
           intros o' [->|Ho']%elem_of_cons; [lia|]. apply Hlt in Ho'. lia.
        -- split; [lia|]. exists o1. replace (i - k)%nat with (S (i - S k)) by lia. simpl. split_and!; auto; [lia|].
           intros o' [->|Ho']%elem_of_cons; [lia|]. auto.
      * destruct IH; done.
    + specialize (IH (S k) h ml). destruct (most_likely_loop os (S k) h ml) as [i|].
      * destruct IH as [[-> Hlt]|(Hi&o1&Ho&Hge&Hmax)].
        -- left. split; [done|]. intros o' [->|Ho']%elem_of_cons; [lia|]. by apply Hlt.
        -- right. split; [lia|]. exists o1. replace (i - k)%nat with (S (i - S k)) by lia. simpl. split_and!; auto.
           intros o' [->|Ho']%elem_of_cons; [lia|]. auto.
      * destruct IH as [-> Hlt]. split; [done|]. intros o' [->|Ho']%elem_of_cons; [lia|]. by apply Hlt.
Qed.

Lemma ind_outcome_spec os id : forall k,
  match ind_of_outcome_loop os k id with
  | None => id ∉ os
  | Some i => (k <= i)%nat /\ os !! (i - k)%nat = Some id /\ forall j, (j < i - k)%nat -> os !! j <> Some id
  end.
Proof.
  induction os as [|o os IH]; intros k; simpl; [set_solver|].
  destruct (Z.eqb_spec o id) as [->|Hne].
  - rewrite Nat.sub_diag. split_and!; auto. intros; lia.
  - specialize (IH (S k)). destruct (ind_of_outcome_loop os (S k) id) as [i|].
    + destruct IH as (Hk&Hi&Hj). split; [lia|]. replace (i - k)%nat with (S (i - S k)) by lia. split; [done|].
      intros [|j] Hlt; simpl; [congruence|]. apply Hj. lia.
    + set_solver.
Qed.

Lemma getaction_spec acts id :
  match GetAction_loop acts id with
  | None => forall a, a ∈ acts -> aID a <> id
  | Some a => exists i, acts !! i = Some a /\ aID a = id /\ forall j b, (j < i)%nat -> acts !! j = Some b -> aID b <> id
  end.
Proof.
  induction acts as [|a acts IH]; simpl; [set_solver|].
  destruct (Z.eqb_spec (aID a) id) as [E|E].
  - exists 0%nat. split_and!; auto. intros; lia.
  - destruct (GetAction_loop acts id) as [b|].
    + destruct IH as (i&Hi&Hb&Hj). exists (S i). split_and!; auto.
      intros [|j] c Hlt Hc; simpl in *; [congruence|]. apply (Hj j); [lia|done].
    + intros b [->|Hb]%elem_of_cons; auto.
Qed.

Lemma contains_spec l id : ContainsPred l id = true <-> id ∈ l.
Proof.
  induction l as [|p l IH]; simpl; [set_solver|]. destruct (Z.eqb_spec p id); set_solver.
Qed.

Lemma remove_loop l id : NoDup l -> forall todo i, drop i l = todo -> id ∉ take i l ->
  let r := RemovePred_loop i todo l id in
  NoDup (r.2) /\ (forall x, x ∈ r.2 <-> x ∈ l /\ x <> id) /\ (r.1 = true <-> id ∈ l).
Proof.
  intros Hnd. induction todo as [|p ps IH]; intros i Hd Hni; simpl.
  - assert (id ∉ l). { rewrite <- (take_drop i l), Hd, app_nil_r. done. }
    split_and!; [done| |split; done]. set_solver.
  - assert (l !! i = Some p) as Hi by (rewrite <- (Nat.add_0_r i), <- lookup_drop, Hd; done).
    destruct (Z.eqb_spec p id) as [->|Hne]; simpl.
    + assert (id ∈ l) as Hin by eauto using elem_of_list_lookup_2.
      destruct (last l) as [lst|] eqn:El; [|apply last_None in El; by subst].
      apply last_Some in El as [l0 ->].
      rewrite app_length in *; simpl in *. replace (length l0 + 1 - 1)%nat with (length l0) by lia.
      assert (forall x, x ∈ take (length l0) (<[i:=lst]> (l0 ++ [lst])) <-> x ∈ l0 ++ [lst] /\ x <> id) as Hmem.
      { apply NoDup_app in Hnd as (Hn0&Hd0&_).
        destruct (decide (i < length l0)%nat) as [Hlt|Hge].
        - rewrite insert_app_l by done. rewrite take_app_alt by (by rewrite insert_length).
          rewrite lookup_app_l in Hi by done. intros x.
          destruct (elem_of_list_split_length l0 i id Hi) as (k1&k2&->&->).
          rewrite insert_app_r_alt, Nat.sub_diag by lia. simpl.
          apply NoDup_app in Hn0 as (Hk1&Hk&Hk2). apply NoDup_cons in Hk2 as [Hk2 Hk2'].
          specialize (Hd0 id ltac:(set_solver)). set_solver.
        - assert (i = length l0) as ->. { apply lookup_lt_Some in Hi. rewrite app_length in Hi. simpl in Hi. lia. }
          rewrite lookup_app_r, Nat.sub_diag in Hi by lia. injection Hi as ->.
          rewrite insert_app_r_alt, Nat.sub_diag by lia. simpl. rewrite take_app. intros x.
          specialize (Hd0 id). set_solver. }
      split_and!; [|done|split; done].
      apply NoDup_app in Hnd as (Hn0&Hd0&_).
      destruct (decide (i < length l0)%nat) as [Hlt|Hge].
      * rewrite insert_app_l by done. rewrite take_app_alt by (by rewrite insert_length).
        rewrite lookup_app_l in Hi by done.
        destruct (elem_of_list_split_length l0 i id Hi) as (k1&k2&->&->).
        rewrite insert_app_r_alt, Nat.sub_diag by lia. simpl.
        apply NoDup_app in Hn0 as (Hk1&Hk&Hk2). apply NoDup_cons in Hk2 as [Hk2 Hk2'].
        assert (lst ∉ k1 ++ id :: k2) as Hl by (intros Hx; apply (Hd0 lst Hx); set_solver).
        apply NoDup_app. split_and!; [done| |apply NoDup_cons; set_solver].
        intros x Hx. specialize (Hk x Hx). set_solver.
      * rewrite insert_app_r_alt by lia. by rewrite take_app_alt.
    + apply IH.
      * rewrite <- (Nat.add_1_r i), <- drop_drop, Hd. done.
      * rewrite (take_S_r _ _ p) by done. set_solver.
Qed.

Lemma preds_history ops : forall l s, NoDup l -> (forall x, x ∈ l <-> x ∈ s) ->
  NoDup (foldl run_pred l ops) /\ forall x, x ∈ foldl run_pred l ops <-> x ∈ foldl spec_pred s ops.
Proof.
  induction ops as [|o ops IH]; intros l s Hnd Hs; simpl; [done|].
  apply IH.
  - destruct o; simpl.
    + unfold AddPred. destruct (ContainsPred l id) eqn:E; [done|].
      assert (id ∉ l) by (rewrite <- contains_spec; congruence).
      apply NoDup_app. split_and!; [done|set_solver|apply NoDup_singleton].
    + apply (remove_loop l id Hnd l 0); [done|set_solver].
  - destruct o; simpl; intros x.
    + unfold AddPred. destruct (ContainsPred l id) eqn:E.
      * apply contains_spec in E. set_solver.
      * set_solver.
    + destruct (remove_loop l id Hnd l 0 eq_refl ltac:(set_solver)) as (_&H&_). unfold RemovePred. rewrite H. set_solver.
Qed.

(** PathExists. *)
Lemma find_state_spec arr id : forall k,
  match find_state arr k id with
  | None => forall j s, arr !! j = Some s -> msID s <> id
  | Some i => (k <= i)%nat /\ (exists s, arr !! (i - k)%nat = Some s /\ msID s = id) /\
              (forall j s, arr !! j = Some s -> msID s = id -> (i - k <= j)%nat)
  end.
Proof.
  induction arr as [|s arr IH]; intros k; simpl; [intros; by rewrite lookup_nil in *|].
  destruct (Z.eqb_spec (msID s) id) as [E|E].
  - rewrite Nat.sub_diag. split_and!; [done|eauto|lia].
  - specialize (IH (S k)). destruct (find_state arr (S k) id) as [i|].
    + destruct IH as (Hk&Hi&Hj). replace (i - k)%nat with (S (i - S k)) by lia. split_and!; [lia|done|].
      intros [|j] t Ht Hid; simpl in *; [congruence|]. specialize (Hj j t Ht Hid). lia.
    + intros [|j] t Ht; simpl in *; [congruence|eauto].
Qed.
Lemma find_state_denotes arr id i : find_state arr 0 id = Some i -> denotes arr id i.
Proof.
  intros H. pose proof (find_state_spec arr id 0) as Hs. rewrite H in Hs. rewrite Nat.sub_0_r in Hs.
  destruct Hs as (_&H1&H2). by split.
Qed.
Lemma denotes_unique arr id i j : denotes arr id i -> denotes arr id j -> i = j.
Proof. intros [(s&Hs&Es) H1] [(t&Ht&Et) H2]. specialize (H1 _ _ Ht Et). specialize (H2 _ _ Hs Es). lia. Qed.
Lemma find_state_complete arr id i : denotes arr id i -> find_state arr 0 id = Some i.
Proof.
  intros H. destruct (find_state arr 0 id) as [j|] eqn:E.
  - f_equal. eapply denotes_unique; [by apply find_state_denotes|done].
  - pose proof (find_state_spec arr id 0) as Hs. rewrite E in Hs. destruct H as [(s&H1&H2) _]. by destruct (Hs _ _ H1).
Qed.

Definition nfalse (l : list bool) : nat := length (filter (fun b => b = false) l).
Lemma nfalse_insert l i : l !! i = Some false -> (S (nfalse (<[i:=true]> l)) = nfalse l)%nat.
Proof.
  revert i. induction l as [|b l IH]; intros [|i] H; simpl in *; try done.
  - injection H as ->. unfold nfalse. by rewrite filter_cons_False, filter_cons_True by done.
  - specialize (IH i H). unfold nfalse in *. rewrite !filter_cons. destruct (decide (b = false)); simpl; lia.
Qed.

Lemma push_spec arr succs : forall proc wl, length proc = length arr ->
  match push_succs arr succs proc wl with
  | Ok (proc', wl') =>
      (forall id, id ∈ succs -> exists i, denotes arr id i /\ proc' !! i = Some true) /\
      length proc' = length arr /\ (nfalse proc' + length wl' = nfalse proc + length wl)%nat /\
      (forall i, proc !! i = Some true -> proc' !! i = Some true) /\
      (forall i, i ∈ wl -> i ∈ wl') /\
      (forall i, i ∈ wl' -> i ∈ wl \/ exists id, id ∈ succs /\ denotes arr id i) /\
      (forall i, proc' !! i = Some true -> proc !! i = Some true \/ i ∈ wl')
  | Exn _ => exists id, id ∈ succs /\ forall j t, arr !! j = Some t -> msID t <> id
  | UB => False
  | OOF => False
  end.
Proof.
  induction succs as [|id succs IH]; intros proc wl Hlen; simpl.
  - split_and!; auto. set_solver.
  - destruct (find_state arr 0 id) as [i|] eqn:Ef.
    2:{ exists id. split; [set_solver|]. pose proof (find_state_spec arr id 0) as Hs. by rewrite Ef in Hs. }
    apply find_state_denotes in Ef. pose proof Ef as [(s&Hs&_) _].
    destruct (proc !! i) as [[]|] eqn:Ep.
    + specialize (IH proc wl Hlen). destruct (push_succs arr succs proc wl) as [[p' w']| | |]; [|set_solver|done|done].
      destruct IH as (H1&H2&H3&H4&H5&H6&H7). split_and!; auto.
      * intros j [->|Hj]%elem_of_cons; eauto.
      * intros j Hj. destruct (H6 j Hj) as [?|(id'&?&?)]; [by left|right; exists id'; set_solver].
    + specialize (IH (<[i:=true]> proc) (i :: wl) ltac:(by rewrite insert_length)).
      destruct (push_succs arr succs _ _) as [[p' w']| | |]; [|set_solver|done|done].
      destruct IH as (H1&H2&H3&H4&H5&H6&H7).
      assert (i < length proc)%nat as Hlt by eauto using lookup_lt_Some.
      split_and!; auto.
      * intros j [->|Hj]%elem_of_cons; eauto. exists i. split; [done|]. apply H4. by rewrite list_lookup_insert.
      * pose proof (nfalse_insert proc i Ep). simpl in H3. lia.
      * intros j Hj. apply H4. destruct (decide (j = i)) as [->|]; [by rewrite list_lookup_insert|by rewrite list_lookup_insert_ne].
      * intros j Hj. apply H5. set_solver.
      * intros j Hj. destruct (H6 j Hj) as [Hw|(id'&?&?)]; [|right; exists id'; set_solver].
        apply elem_of_cons in Hw as [->|?]; [|by left]. right. exists id. set_solver.
      * intros j Hj. destruct (H7 j Hj) as [Hp|?]; [|by right].
        destruct (decide (j = i)) as [->|]; [right; apply H5; set_solver|]. left. by rewrite list_lookup_insert_ne in Hp.
    + apply lookup_ge_None in Ep. apply lookup_lt_Some in Hs. lia.
Qed.

Section path.
Context (arr : list mstate) (src tgt : nat).
Hypothesis Hsrc : (src < length arr)%nat.

Notation step := (policy_step arr).

(** V: the states already taken from the work list. *)
Record pinv (V : gset nat) (proc : list bool) (wl : list nat) : Prop := {
  pi_len : length proc = length arr;
  pi_V : forall i, i ∈ V -> rtc step src i /\ i <> tgt /\ ~ malformed arr i /\
           forall j, step i j -> proc !! j = Some true;
  pi_wl : forall i, i ∈ wl -> rtc step src i;
  pi_proc : forall i, proc !! i = Some true -> i ∈ V \/ i ∈ wl;
  pi_src : src ∈ V \/ src ∈ wl
}.

Lemma step_lt i j : step i j -> (j < length arr)%nat.
Proof. intros (s&a&acts&id&_&_&_&[(t&Ht&_) _]). eauto using lookup_lt_Some. Qed.
Lemma rtc_lt i : rtc step src i -> (i < length arr)%nat.
Proof. intros H. apply rtc_inv_r in H as [->|(y&_&H)]; eauto using step_lt. Qed.

Lemma path_loop_spec fuel : forall V proc wl, pinv V proc wl -> (nfalse proc + length wl < fuel)%nat ->
  match path_loop fuel arr tgt proc wl with
  | Ok true => rtc step src tgt
  | Ok false => ~ rtc step src tgt /\ forall i, rtc step src i -> ~ malformed arr i
  | Exn _ => exists i, rtc step src i /\ malformed arr i
  | _ => False
  end.
Proof.
  induction fuel as [|fuel IH]; intros V proc wl Hinv Hf; [lia|]. simpl.
  destruct wl as [|i wl].
  - assert (forall k, rtc step src k -> k ∈ V) as Hcl.
    { intros k Hk. revert k Hk. apply rtc_ind_r.
      - destruct (pi_src _ _ _ Hinv); set_solver.
      - intros k k' Hk Hstep IHk. destruct (pi_V _ _ _ Hinv k IHk) as (_&_&_&Hj). specialize (Hj k' Hstep).
        destruct (pi_proc _ _ _ Hinv k' Hj); set_solver. }
    split.
    + intros Ht. by apply Hcl, (pi_V _ _ _ Hinv) in Ht as (_&?&_).
    + intros k Hk. by apply Hcl, (pi_V _ _ _ Hinv) in Hk as (_&_&?&_).
  - pose proof (pi_wl _ _ _ Hinv i ltac:(set_solver)) as Hri.
    destruct (lookup_lt_is_Some_2 arr i (rtc_lt _ Hri)) as [st Est]. rewrite Est.
    destruct (Z.ltb_spec 1 (Z.of_nat (length (msActs st)))).
    { exists i. split; [done|]. exists st. split; [done|]. left. lia. }
    destruct (Nat.eqb_spec i tgt) as [->|Hne]; [done|].
    set (succs := match msActs st with [] => [] | a :: _ => aSuccs a end).
    pose proof (push_spec arr succs proc wl (pi_len _ _ _ Hinv)) as Hp.
    destruct (push_succs arr succs proc wl) as [[p' w']|e| |]; simpl; [| |done|done].
    + destruct Hp as (H1&H2&H3&H4&H5&H6&H7).
      apply (IH ({[i]} ∪ V)); [|simpl in Hf; lia].
      assert (forall j, step i j -> p' !! j = Some true) as Hsi.
      { intros j (s&a&acts&id&Hs&Ha&Hid&Hd). rewrite Est in Hs. injection Hs as <-.
        unfold succs in H1. rewrite Ha in H1. destruct (H1 id Hid) as (j'&Hd'&Hpj).
        by rewrite (denotes_unique _ _ _ _ Hd Hd'). }
      constructor; [done| | | |].
      * intros k [->%elem_of_singleton|Hk]%elem_of_union.
        -- split_and!; [done|done| |done]. intros (s&Hs&Hm). rewrite Est in Hs. injection Hs as <-.
           destruct Hm as [Hm|(a&acts&id&Ha&Hid&Hno)]; [lia|].
           unfold succs in H1. rewrite Ha in H1. destruct (H1 id Hid) as (j'&[(t&Ht&Et) _]&_). by apply (Hno _ _ Ht).
        -- destruct (pi_V _ _ _ Hinv k Hk) as (?&?&?&Hj). split_and!; auto.
      * intros k Hk. destruct (H6 k Hk) as [Hw|(id&Hid&Hd)].
        -- apply (pi_wl _ _ _ Hinv). set_solver.
        -- eapply rtc_r; [exact Hri|]. unfold succs in Hid. destruct (msActs st) as [|a acts] eqn:Ea; [set_solver|].
           exists st, a, acts, id. done.
      * intros k Hk. destruct (H7 k Hk) as [Hw|?]; [|by right].
        destruct (pi_proc _ _ _ Hinv k Hw) as [?|Hkw]; [set_solver|].
        apply elem_of_cons in Hkw as [->|?]; [set_solver|]. right. auto.
      * destruct (pi_src _ _ _ Hinv) as [?|Hs]; [set_solver|].
        apply elem_of_cons in Hs as [->|?]; [set_solver|]. right. auto.
    + exists i. split; [done|]. exists st. split; [done|]. right.
      destruct Hp as (id&Hid&Hno). unfold succs in Hid. destruct (msActs st) as [|a acts]; [set_solver|].
      exists a, acts, id. done.
Qed.

Lemma path_exists_spec :
  match PathExists arr src tgt with
  | Ok true => rtc step src tgt
  | Ok false => ~ rtc step src tgt /\ forall i, rtc step src i -> ~ malformed arr i
  | Exn _ => exists i, rtc step src i /\ malformed arr i
  | _ => False
  end.
Proof.
  apply (path_loop_spec _ ∅).
  - constructor.
    + by rewrite replicate_length.
    + set_solver.
    + intros i ->%elem_of_list_singleton. apply rtc_refl.
    + intros i Hi. apply lookup_replicate in Hi as [? _]. done.
    + right. set_solver.
  - assert (forall n, nfalse (replicate n false) = n) as Hn.
    { induction n as [|n IHn]; [done|]. unfold nfalse in *. simpl replicate. rewrite filter_cons_True by done. simpl. lia. }
    rewrite Hn. simpl. lia.
Qed.
End path.
