(** Sweeps of EvaluatePolicy: values bounds, accuracy and termination. *)
From Verif Require Import Base MdpModel MdpSpec MdpProofs EvalModel EvalSpec EvalProofs.
From Coq Require Import Lqa.
Local Open Scope Z_scope.

Section sweep.
Context (arr : list est) (start goal : Z) (Hwf : wf_policy 0 arr).
Context (K : (Z -> Q) -> Prop)
  (Kstep : forall f, K f -> exists f', K f' /\ (forall x, (f x <= f' x)%Q) /\
     forall s a, s ∈ arr -> es_id s <> goal -> es_acts s = [a] -> (Tf (ea_outs a) f <= f' (es_id s))%Q).

Definition bnd (vals : list Q) : Prop := exists f, K f /\ forall x, (Vf arr vals x <= f x)%Q.

Record sw_inv (vals0 : list Q) (i : nat) (st : evst) : Prop := {
  sw_sub : sub_inv arr goal (ev_vals st);
  sw_pcs : length (ev_pcs st) = length arr;
  sw_lo : forall x, (Vf arr vals0 x <= Vf arr (ev_vals st) x)%Q;
  sw_hi : forall x, (Vf arr (ev_vals st) x <= Vf arr vals0 x + ev_delta st)%Q;
  sw_delta : (0 <= ev_delta st)%Q;
  sw_todo : forall j, (i <= j)%nat -> ev_vals st !! j = vals0 !! j;
  sw_done : forall j s a, (j < i)%nat -> arr !! j = Some s -> es_id s <> goal -> es_acts s = [a] ->
              (Tf (ea_outs a) (Vf arr vals0) <= Vf arr (ev_vals st) (es_id s))%Q;
  sw_sum : (Qsum vals0 + ev_delta st <= Qsum (ev_vals st))%Q;
  sw_full : ev_full st = true;
  sw_bnd : bnd (ev_vals st);
}.

Lemma sw_inv_same vals0 i st st' : same_vals st st' -> sw_inv vals0 i st -> sw_inv vals0 i st'.
Proof.
  intros (E1&E2&E3&E4&E5) []. split; rewrite ?E1, ?E2, ?E3; try done. by rewrite E5.
Qed.

Lemma ev_state_ok vals0 i s st : arr !! i = Some s -> sw_inv vals0 i st -> (es_id s <> goal -> es_acts s <> []) ->
  exists st', ev_state arr start goal i s st = Ok (st', false) /\ sw_inv vals0 (S i) st' /\ ev_first st' = ev_first st.
Proof.
  intros Hi Hinv Hfull. pose proof Hwf as [Hnd Hw].
  assert (Hin : s ∈ arr) by (by eapply elem_of_list_lookup_2).
  pose proof (sw_sub _ _ _ Hinv) as Hsub. pose proof (si_len _ _ _ Hsub) as Hlen.
  assert (Hlt : (i < length (ev_vals st))%nat) by (rewrite Hlen; by eapply lookup_lt_Some).
  destruct (lookup_lt_is_Some_2 (ev_vals st) i Hlt) as [v Hv].
  assert (HV : Vf arr (ev_vals st) (es_id s) = v) by (by eapply Vf_at).
  unfold ev_state. destruct (Z.eqb_spec (es_id s) goal) as [Eg|Eg].
  - set (st1 := mkEV _ _ _ _ _ _ _ _).
    assert (Hst1 : sw_inv vals0 (S i) st1).
    { assert (Ev : <[i := 0%Q]> (ev_vals st) = ev_vals st).
      { apply list_insert_id. rewrite Hv, <- HV, Eg. f_equal. apply (si_goal _ _ _ Hsub). }
      destruct Hinv. split; subst st1; simpl; rewrite ?Ev; try done.
      - intros j Hj. apply sw_todo0. lia.
      - intros j t a Hj Ht Hne Ha. apply (sw_done0 j t a); [|done..].
        destruct (decide (j = i)) as [-> |]; [|lia]. congruence. }
    destruct (ev_pc_ok 0 arr start goal i s st1 Hwf Hi (sw_pcs _ _ _ Hst1)) as (st2&->&Hs).
    simpl. eexists; split; [done|]. split; [by eapply sw_inv_same|]. by destruct Hs as (?&?&?&->&?).
  - destruct (Hw s Hin) as [E|(a&E&Hok&Ho)]; [by destruct (Hfull Eg)|]. rewrite E.
    destruct (ev_backup_ok arr (ev_vals st) (ea_outs a) 0%Q Hlen Ho) as (q&->&Eq). simpl. rewrite Hv.
    assert (EqT : (q == Tf (ea_outs a) (Vf arr (ev_vals st)))%Q) by (rewrite Eq; unfold Tf; ring).
    assert (Hvq : (v <= q)%Q).
    { rewrite EqT, <- HV. by apply (si_sub _ _ _ Hsub). }
    rewrite (proj2 (qltb_false q v) Hvq).
    destruct (sub_inv_update arr goal (ev_vals st) i s a q Hwf Hsub Hi Eg E EqT) as [Hge Hsub'].
    set (d := if qltb (ev_delta st) (q - v) then (q - v)%Q else ev_delta st).
    assert (Hd : (ev_delta st <= d)%Q /\ (q - v <= d)%Q /\ (d <= ev_delta st \/ d == q - v)%Q).
    { subst d. destruct (qltb (ev_delta st) (q - v)) eqn:Eq2; [apply qltb_true in Eq2|apply qltb_false in Eq2];
        (split; [lra|]); (split; [lra|]); [right|left]; lra. }
    destruct Hd as (Hd1&Hd2&Hd3).
    set (st1 := mkEV _ _ _ _ _ _ _ _).
    assert (Hst1 : sw_inv vals0 (S i) st1).
    { assert (Hvi : forall x, Vf arr (<[i := q]> (ev_vals st)) x = if x =? es_id s then q else Vf arr (ev_vals st) x).
      { intros x. by apply (Vf_insert arr (ev_vals st) i s). }
      assert (Hv0 : Vf arr vals0 (es_id s) = v).
      { eapply Vf_at; [done..|]. rewrite <- (sw_todo _ _ _ Hinv i); [done|lia]. }
      destruct Hinv. split; subst st1; simpl; try done.
      - intros x. specialize (sw_lo0 x). specialize (Hge x). lra.
      - intros x. rewrite Hvi. destruct (Z.eqb_spec x (es_id s)) as [-> | _].
        + rewrite Hv0. lra.
        + specialize (sw_hi0 x). lra.
      - lra.
      - intros j Hj. rewrite list_lookup_insert_ne by lia. apply sw_todo0. lia.
      - intros j t b Hj Ht Hne Hb. destruct (decide (j = i)) as [-> | Hji].
        + assert (t = s) as -> by congruence. assert (b = a) as -> by congruence.
          rewrite Hvi, Z.eqb_refl, EqT. by apply (Tf_mono 0).
        + apply Qle_trans with (Vf arr (ev_vals st) (es_id t)); [apply (sw_done0 j t b); [lia|done..]|apply Hge].
      - rewrite (Qsum_insert _ i v); [|done]. destruct Hd3; lra.
      - destruct sw_bnd0 as (f&Hf&Hb). destruct (Kstep f Hf) as (f'&Hf'&Hle&HT). exists f'. split; [done|].
        intros x. rewrite Hvi. destruct (Z.eqb_spec x (es_id s)) as [-> | _].
        + rewrite EqT. apply Qle_trans with (Tf (ea_outs a) f); [by apply (Tf_mono 0)|by apply HT].
        + specialize (Hb x). specialize (Hle x). lra. }
    destruct (ev_pc_ok 0 arr start goal i s st1 Hwf Hi (sw_pcs _ _ _ Hst1)) as (st2&->&Hs).
    simpl. eexists; split; [done|]. split; [by eapply sw_inv_same|]. by destruct Hs as (?&?&?&->&?).
Qed.

Lemma ev_sweep_ok vals0 : full_policy arr goal -> forall ss i st, (i <= length arr)%nat -> ss = drop i arr -> sw_inv vals0 i st ->
  exists st', ev_sweep arr start goal ss i st = Ok (st', false) /\ sw_inv vals0 (length arr) st' /\
    ev_first st' = ev_first st.
Proof.
  intros Hfull. induction ss as [|s ss IH]; intros i st Hi Hss Hinv; simpl.
  - assert (i = length arr) as ->.
    { apply (f_equal length) in Hss. rewrite drop_length in Hss. simpl in Hss. lia. }
    eexists; split; [done|]. by split.
  - assert (Hs : arr !! i = Some s).
    { rewrite <- (Nat.add_0_r i), <- lookup_drop, <- Hss. done. }
    destruct (ev_state_ok vals0 i s st Hs Hinv) as (st1&->&H1&Ef);
      [intros; apply Hfull; [by eapply elem_of_list_lookup_2|done]|]. simpl.
    destruct (IH (S i) st1) as (st2&->&H2&Ef2).
    + apply lookup_lt_Some in Hs. lia.
    + apply (f_equal (drop 1)) in Hss. rewrite drop_drop in Hss. replace (i + 1)%nat with (S i) in Hss by lia. done.
    + done.
    + eexists; split; [done|]. split; [done|congruence].
Qed.

(** A state without an action stops the evaluation at once. *)
Lemma ev_sweep_partial vals0 : forall ss i st, ss = drop i arr -> sw_inv vals0 i st ->
  (exists s, s ∈ ss /\ es_id s <> goal /\ es_acts s = []) ->
  exists st' k s v, ev_sweep arr start goal ss i st = Ok (st', true) /\ ev_full st' = false /\
    arr !! k = Some s /\ es_id s <> goal /\ es_acts s = [] /\
    ev_vals st' = <[k := inject_Z UNKNOWN_COST]> v /\ sub_inv arr goal v /\ bnd v.
Proof.
  induction ss as [|s ss IH]; intros i st Hss Hinv (t&Ht&Hne&Ha); [by apply elem_of_nil in Ht|]. simpl.
  assert (Hs : arr !! i = Some s) by (rewrite <- (Nat.add_0_r i), <- lookup_drop, <- Hss; done).
  destruct (decide (es_id s <> goal /\ es_acts s = [])) as [[H1 H2]|Hno].
  - unfold ev_state. destruct (Z.eqb_spec (es_id s) goal); [done|]. rewrite H2. simpl.
    destruct Hinv. eexists _, i, s, (ev_vals st). split_and!; done.
  - destruct (ev_state_ok vals0 i s st Hs Hinv) as (st1&->&H1&Ef); [intros H1 H2; by apply Hno|]. simpl.
    apply IH.
    + apply (f_equal (drop 1)) in Hss. rewrite drop_drop in Hss. replace (i + 1)%nat with (S i) in Hss by lia. done.
    + done.
    + exists t. split_and!; [|done..]. apply elem_of_cons in Ht as [-> | Ht]; [by destruct Hno|done].
Qed.
End sweep.
