From Coq Require Import ZifyBool.
From Verif Require Import Base ListModel ListSpec.

(** Sequence of (address, state) pairs between [p] (previous) and [nx] (next). *)
Definition hd_or (z : list (nat * nat)) (nx : option nat) : option nat :=
  match z with [] => nx | (a,_) :: _ => Some a end.
Fixpoint last_or (p : option nat) (z : list (nat * nat)) : option nat :=
  match z with [] => p | (a,_) :: z' => last_or (Some a) z' end.
Fixpoint dseg (N : gmap nat lnode) (p : option nat) (z : list (nat * nat)) (nx : option nat) : Prop :=
  match z with
  | [] => True
  | (a,s) :: z' => N !! a = Some (mkNode s p (hd_or z' nx)) /\ dseg N (Some a) z' nx
  end.

Lemma hd_or_app z1 z2 nx : hd_or (z1 ++ z2) nx = hd_or z1 (hd_or z2 nx).
Proof. by destruct z1 as [|[]]. Qed.
Lemma last_or_app z1 : forall p z2, last_or p (z1 ++ z2) = last_or (last_or p z1) z2.
Proof. induction z1 as [|[a s] z1 IH]; intros p z2; simpl; [done|apply IH]. Qed.
Lemma dseg_app N z1 : forall p z2 nx,
  dseg N p (z1 ++ z2) nx <-> dseg N p z1 (hd_or z2 nx) /\ dseg N (last_or p z1) z2 nx.
Proof.
  induction z1 as [|[a s] z1 IH]; intros p z2 nx; simpl; [tauto|].
  rewrite hd_or_app, IH. tauto.
Qed.
Lemma dseg_insert N z : forall p nx a n, a ∉ z.*1 -> dseg N p z nx -> dseg (<[a:=n]> N) p z nx.
Proof.
  induction z as [|[b s] z IH]; intros p nx a n Ha; simpl; [done|].
  csimpl in Ha. apply not_elem_of_cons in Ha as [Ha1 Ha2].
  intros [H1 H2]. split; [by rewrite lookup_insert_ne|by apply IH].
Qed.
Lemma dseg_delete N z : forall p nx a, a ∉ z.*1 -> dseg N p z nx -> dseg (delete a N) p z nx.
Proof.
  induction z as [|[b s] z IH]; intros p nx a Ha; simpl; [done|].
  csimpl in Ha. apply not_elem_of_cons in Ha as [Ha1 Ha2].
  intros [H1 H2]. split; [by rewrite lookup_delete_ne|by apply IH].
Qed.

Lemma NoDup_mid {A} (l1 l2 : list A) x : NoDup (l1 ++ x :: l2) ->
  x ∉ l1 /\ x ∉ l2 /\ NoDup (l1 ++ l2) /\ NoDup l1 /\ NoDup l2 /\ (forall y, y ∈ l1 -> y ∉ l2).
Proof.
  intros H. apply NoDup_app in H as (H1&H2&H3). apply NoDup_cons in H3 as [H3 H4].
  assert (forall y, y ∈ l1 -> y ∉ l2) as Hd.
  { intros y Hy Hy2. apply (H2 y Hy). apply elem_of_cons. by right. }
  split_and!; try done.
  - intros Hx. apply (H2 x Hx). apply elem_of_cons. by left.
  - apply NoDup_app. done.
Qed.

Definition lrep (l : clist) (z : list (nat * nat)) : Prop :=
  cfirst l = hd_or z None /\ clast l = last_or None z /\ csize l = length z /\
  dseg (nodes l) None z None /\
  NoDup (z.*1) /\ NoDup (z.*2) /\
  (forall a, a ∈ z.*1 -> a < nextaddr l) /\
  (forall s a, elem l !! s = Some a <-> (a,s) ∈ z).

Lemma new_list_lrep : lrep new_list [].
Proof.
  split_and!; simpl; try done; try constructor; try set_solver.
Qed.

Lemma elem_of_snd (z : list (nat * nat)) s : s ∈ z.*2 <-> exists a, (a,s) ∈ z.
Proof.
  rewrite elem_of_list_fmap. split.
  - intros ([a b]&->&H). eauto.
  - intros [a H]. exists (a,s). done.
Qed.
Lemma elem_of_fst (z : list (nat * nat)) a : a ∈ z.*1 <-> exists s, (a,s) ∈ z.
Proof.
  rewrite elem_of_list_fmap. split.
  - intros ([c b]&->&H). eauto.
  - intros [s H]. exists (a,s). done.
Qed.

Lemma list_in_spec l z s : lrep l z -> (list_in l s = true <-> s ∈ z.*2).
Proof.
  intros (_&_&_&_&_&_&_&H). unfold list_in. rewrite elem_of_snd.
  destruct (elem l !! s) as [a|] eqn:E.
  - split; [|done]. intros _. exists a. by apply H.
  - split; [done|]. intros [a Ha]. apply H in Ha. congruence.
Qed.

Lemma list_insert_spec l z s : lrep l z -> s ∉ z.*2 -> (Z.of_nat (length z) < LISTSIZE)%Z ->
  exists l' a, list_insert l s = Ok l' /\ lrep l' ((a,s) :: z).
Proof.
  intros H Hs Hsz. pose proof (list_in_spec l z s H) as Hin. destruct H as (A&B&C&D&E&F&G&I).
  unfold list_insert. rewrite C.
  destruct (Z.geb_spec (Z.of_nat (length z)) LISTSIZE) as [|_]; [lia|].
  destruct (list_in l s) eqn:Ei; [exfalso; apply Hs, Hin; done|].
  cbn [cfirst]. set (a := nextaddr l).
  assert (a ∉ z.*1) as Ha. { intros Hx. apply G in Hx. unfold a in Hx. lia. }
  assert (forall s' a', <[s:=a]> (elem l) !! s' = Some a' <-> (a',s') ∈ (a,s) :: z) as HI.
  { intros s' a'. rewrite elem_of_cons. destruct (decide (s = s')) as [->|Hne].
    - rewrite lookup_insert. split.
      + intros [= <-]. by left.
      + intros [[= ->]|Hx]; [done|]. exfalso. apply Hs. apply elem_of_snd. eauto.
    - rewrite lookup_insert_ne by done. rewrite I. split; [by right|].
      intros [[= -> ->]|Hx]; [done|done]. }
  assert (NoDup (a :: z.*1)) as HND1 by by constructor.
  assert (NoDup (s :: z.*2)) as HND2 by by constructor.
  destruct z as [|[b t] z].
  - simpl in A. rewrite A. cbn [obind]. eexists _, a. split; [done|].
    simpl in B. rewrite B.
    split_and!; simpl; try done.
    + split; [by rewrite lookup_insert|done].
    + intros a'. rewrite elem_of_list_singleton. intros ->. lia.
  - simpl in A. rewrite A. simpl in D. destruct D as [D1 D2].
    csimpl in Ha. apply not_elem_of_cons in Ha as [Hab Ha].
    unfold set_prev, deref. cbn [nodes]. rewrite lookup_insert_ne by done. rewrite D1. cbn [obind].
    eexists _, a. split; [done|]. simpl in B. simpl. rewrite B.
    assert (exists c, last_or (Some b) z = Some c) as [c Hc].
    { clear. revert b. induction z as [|[x y] z IH]; intros b; simpl; eauto. }
    rewrite Hc. split_and!; simpl; try done.
    + csimpl in E. apply NoDup_cons in E as [E1 E2]. split_and!.
      * rewrite lookup_insert_ne by done. by rewrite lookup_insert.
      * by rewrite lookup_insert.
      * apply dseg_insert; [done|]. by apply dseg_insert.
    + intros a'. rewrite !elem_of_cons. intros [->|Hx]; [lia|].
      specialize (G a'). csimpl in G. rewrite elem_of_cons in G. specialize (G Hx). lia.
Qed.

Lemma list_remove_spec l z1 a s z2 : lrep l (z1 ++ (a,s) :: z2) ->
  exists l', list_remove l s = Ok l' /\ lrep l' (z1 ++ z2).
Proof.
  intros (A&B&C&D&E&F&G&I). unfold list_remove.
  assert (elem l !! s = Some a) as Es by (apply I; set_solver).
  rewrite Es. rewrite C, app_length. simpl length.
  destruct (Nat.eqb_spec (length z1 + S (length z2)) 0) as [|_]; [lia|].
  rewrite dseg_app in D. simpl in D. destruct D as (D1&D2&D3).
  unfold deref. rewrite D2. cbn [obind nprev nnext].
  rewrite fmap_app in E, F. csimpl in E. csimpl in F.
  assert (a ∉ z1.*1 /\ a ∉ z2.*1 /\ NoDup (z1.*1 ++ z2.*1)) as (Ea1&Ea2&E').
  { by apply NoDup_mid in E as (?&?&?&_). }
  assert (s ∉ z1.*2 /\ s ∉ z2.*2 /\ NoDup (z1.*2 ++ z2.*2)) as (Fs1&Fs2&F').
  { by apply NoDup_mid in F as (?&?&?&_). }
  assert (forall s' a', delete s (elem l) !! s' = Some a' <-> (a',s') ∈ z1 ++ z2) as HI.
  { intros s' a'. rewrite lookup_delete_Some, I, !elem_of_app, elem_of_cons. split.
    - intros [Hne [H|[[= -> ->]|H]]]; [by left|done|by right].
    - intros H. assert (s' <> s).
      { intros ->. destruct H as [H|H]; [apply Fs1|apply Fs2]; apply elem_of_snd; eauto. }
      split; [done|]. destruct H as [H|H]; auto. }
  assert (forall a', a' ∈ (z1 ++ z2).*1 -> a' < nextaddr l) as HG.
  { intros a' Ha'. apply G. rewrite fmap_app in *. set_solver. }
  rewrite <- fmap_app in E', F'.
  assert (csize l - 1 = length (z1 ++ z2)) as HC by (rewrite C, !app_length; simpl; lia).
  (* shapes of z1 and z2 *)
  destruct z1 as [|[x xs] z1' _] using rev_ind.
  - simpl in *. destruct z2 as [|[q qs] z2].
    + simpl in *. cbn [obind]. eexists; split; [done|]. split_and!; simpl; try done.
    + simpl in *. unfold set_prev, deref. destruct D3 as [D3 D4]. rewrite D3. cbn [obind].
      apply not_elem_of_cons in Ea2 as [Haq Ea2]. apply NoDup_cons in E' as [E1 E2].
      eexists; split; [done|].
      assert (q <> a) by done.
      split_and!; simpl; try done; [|by constructor].
      split; [rewrite lookup_delete_ne by done; by rewrite lookup_insert|].
      apply dseg_delete; [done|by apply dseg_insert].
  - rewrite last_or_app in *. simpl in *. rewrite dseg_app in D1. simpl in D1. destruct D1 as (D1&D1x&_).
    rewrite fmap_app in Ea1. simpl in Ea1.
    apply not_elem_of_app in Ea1 as [Ea1 Eax]. apply not_elem_of_cons in Eax as [Hax _].
    assert (x ∉ z1'.*1 /\ x ∉ z2.*1 /\ NoDup (z1'.*1) /\ NoDup(z2.*1) /\ (forall y, y ∈ z1'.*1 -> y ∉ z2.*1)) as (Hx1&Hx2&Hn1&Hn2&Hd).
    { rewrite !fmap_app in E'. simpl in E'. rewrite <- app_assoc in E'. simpl in E'.
      by apply NoDup_mid in E' as (?&?&_&?&?&?). }
    destruct z2 as [|[q qs] z2].
    + simpl in *. unfold set_next, deref. rewrite D1x. cbn [obind].
      eexists; split; [done|]. rewrite !app_nil_r in *. split_and!; simpl; try done.
      * rewrite A. rewrite <- app_assoc. rewrite !hd_or_app. done.
      * rewrite last_or_app. done.
      * rewrite dseg_app. simpl. split.
        -- apply dseg_delete; [done|]. apply dseg_insert; [done|]. done.
        -- split; [|done]. rewrite lookup_delete_ne by done. by rewrite lookup_insert.
    + simpl in *. destruct D3 as [D3 D4]. unfold set_next, set_prev, deref. rewrite D1x. cbn [obind nodes].
      apply not_elem_of_cons in Hx2 as [Hxq Hx2]. apply not_elem_of_cons in Ea2 as [Haq Ea2].
      apply NoDup_cons in Hn2 as [Hq2 Hn2].
      assert (q ∉ z1'.*1). { intros Hx. apply (Hd q Hx). set_solver. }
      rewrite lookup_insert_ne by done. rewrite D3. cbn [obind].
      eexists; split; [done|]. split_and!; simpl; try done.
      * rewrite A. rewrite <- app_assoc. rewrite !hd_or_app. done.
      * rewrite B. rewrite !last_or_app. done.
      * rewrite dseg_app. rewrite dseg_app. simpl. rewrite last_or_app. simpl. split; [split; [|split; [|done]]|split].
        -- apply dseg_delete; [done|]. by do 2 (apply dseg_insert; [done|]).
        -- rewrite lookup_delete_ne by done. rewrite lookup_insert_ne by done. by rewrite lookup_insert.
        -- rewrite lookup_delete_ne by done. by rewrite lookup_insert.
        -- apply dseg_delete; [done|]. by do 2 (apply dseg_insert; [done|]).
Qed.

Lemma lremove_app z1 (a s : nat) z2 : s ∉ z1.*2 -> s ∉ z2.*2 ->
  lremove s ((z1 ++ (a,s) :: z2).*2) = (z1 ++ z2).*2.
Proof.
  intros H1 H2. unfold lremove.
  assert (forall l : list nat, s ∉ l -> filter (fun x => x <> s) l = l) as Hf.
  { induction l as [|x l IH]; intros Hl; [done|]. apply not_elem_of_cons in Hl as [Hx Hl].
    rewrite filter_cons_True by done. by rewrite IH. }
  rewrite !fmap_app. simpl. rewrite filter_app. rewrite filter_cons_False by (intros Hx; by apply Hx).
  by rewrite !Hf.
Qed.

Lemma list_remove_in l z s : lrep l z -> s ∈ z.*2 ->
  exists l' z', list_remove l s = Ok l' /\ lrep l' z' /\ z'.*2 = lremove s (z.*2).
Proof.
  intros H Hs. apply elem_of_snd in Hs as [a Ha]. apply elem_of_list_split in Ha as (z1&z2&->).
  destruct (list_remove_spec l z1 a s z2 H) as (l'&E&H'). exists l', (z1 ++ z2). split_and!; try done.
  symmetry. destruct H as (_&_&_&_&_&F&_). rewrite fmap_app in F. simpl in F.
  apply NoDup_mid in F as (?&?&_). by apply lremove_app.
Qed.

Lemma list_remove_notin l z s : lrep l z -> s ∉ z.*2 -> list_remove l s = Exn l.
Proof.
  intros H Hs. unfold list_remove. destruct (elem l !! s) as [a|] eqn:E; [|done].
  exfalso. apply Hs. apply elem_of_snd. exists a. by apply H.
Qed.

Lemma makeempty_spec z : forall l, lrep l z -> exists l', makeempty_loop (length z) l = Ok l' /\ lrep l' [].
Proof.
  induction z as [|[a s] z IH]; intros l H.
  - exists l. split; [|done]. destruct H as (A&_). simpl in *. by rewrite A.
  - pose proof (list_remove_spec l [] a s z H) as (l'&E&H').
    destruct H as (A&_&_&D&_). simpl in *. rewrite A. destruct D as [D _].
    unfold deref. rewrite D. cbn [obind nst]. rewrite E. cbn [obind]. by apply IH.
Qed.

Lemma getfirst_spec l z : lrep l z -> getfirst l = Ok (head (z.*2)).
Proof.
  intros (A&_&_&D&_). unfold getfirst. destruct z as [|[a s] z]; simpl in *; rewrite A; [done|].
  destruct D as [D _]. unfold deref. by rewrite D.
Qed.
Lemma getlast_spec l z : lrep l z -> getlast l = Ok (last (z.*2)).
Proof.
  intros (_&B&_&D&_). unfold getlast. destruct z as [|[a s] z' _] using rev_ind; simpl in *.
  - by rewrite B.
  - rewrite B, last_or_app. simpl. rewrite dseg_app in D. simpl in D. destruct D as (_&D&_).
    unfold deref. rewrite D. simpl. rewrite fmap_app. simpl. by rewrite last_snoc.
Qed.
Lemma getnext_spec l z i s : lrep l z -> z.*2 !! i = Some s -> getnext l s = Ok (z.*2 !! S i).
Proof.
  intros (_&_&_&D&_&_&_&I) Hi. apply list_lookup_fmap_inv in Hi as ([a s']&->&Hi). simpl.
  apply elem_of_list_split_length in Hi as (z1&z2&->&->).
  unfold getnext. assert (elem l !! s' = Some a) as -> by (apply I; set_solver).
  rewrite dseg_app in D. simpl in D. destruct D as (_&D2&D3).
  unfold deref. rewrite D2. cbn [obind nnext].
  rewrite fmap_app, lookup_app_r, fmap_length by (rewrite fmap_length; lia).
  replace (S (length z1) - length z1) with 1 by lia. simpl.
  destruct z2 as [|[b t] z2]; simpl in *; [done|]. destruct D3 as [D3 _]. by rewrite D3.
Qed.

(** Running a history of calls; exceptions are caught by the caller. *)
Definition lcatch (x : outcome clist clist) : outcome unit (lret * clist) :=
  match x with Ok l => Ok (LUnit, l) | Exn l => Ok (LThrow, l) | UB => UB | OOF => OOF end.
Definition lcatchv {A} (f : A -> lret) (l : clist) (x : outcome clist A) : outcome unit (lret * clist) :=
  match x with Ok a => Ok (f a, l) | Exn l => Ok (LThrow, l) | UB => UB | OOF => OOF end.
Definition lexec (l : clist) (o : lop) : outcome unit (lret * clist) :=
  match o with
  | LInsert s => lcatch (list_insert l s)
  | LRemove s => lcatch (list_remove l s)
  | LMakeEmpty => lcatch (makeemptylist l)
  | LGetFirst => lcatchv LState l (getfirst l)
  | LGetLast => lcatchv LState l (getlast l)
  | LGetNext s => lcatchv LState l (getnext l s)
  | LIn s => Ok (LBool (list_in l s), l)
  | LEmpty => Ok (LBool (list_empty l), l)
  end.
Fixpoint lrun (l : clist) (os : list lop) : outcome unit (list lret * clist) :=
  match os with
  | [] => Ok ([], l)
  | o :: os' => do p <- lexec l o; do q <- lrun p.2 os'; Ok (p.1 :: q.1, q.2)
  end.

Lemma lexec_spec l z o : lrep l z -> (forall s, o = LGetNext s -> s ∈ z.*2) ->
  exists r l' z', lexec l o = Ok (r, l') /\ lrep l' z' /\ lspec LISTSIZE (z.*2) o r (z'.*2).
Proof.
  intros H Hn. destruct o as [s|s| | | |s|s|]; unfold lexec.
  - destruct (decide (s ∈ z.*2)) as [Hs|Hs].
    + exists LThrow, l, z. split; [|split; [done|]].
      * unfold list_insert. destruct (_ >=? _)%Z; [done|].
        apply (list_in_spec l z s H) in Hs. by rewrite Hs.
      * simpl. split; [done|]. intros ?. done.
    + destruct (decide (Z.of_nat (length (z.*2)) < LISTSIZE)%Z) as [Hlt|Hge].
      * destruct (list_insert_spec l z s H Hs) as (l'&a&->&H').
        { rewrite fmap_length in Hlt. done. }
        exists LUnit, l', ((a,s) :: z). split; [done|]. split; [done|]. simpl. split; [|done].
        intros [?|?]; [done|lia].
      * exists LThrow, l, z. split; [|split; [done|]].
        { unfold list_insert. pose proof H as (_&_&C&_). rewrite C. rewrite fmap_length in Hge.
          destruct (Z.geb_spec (Z.of_nat (length z)) LISTSIZE); [done|lia]. }
        simpl. split; [done|]. intros _ ?. lia.
  - destruct (decide (s ∈ z.*2)) as [Hs|Hs].
    + destruct (list_remove_in l z s H Hs) as (l'&z'&->&H'&Hz). exists LUnit, l', z'.
      split; [done|]. split; [done|]. simpl. split; [done|]. intros _. by rewrite Hz.
    + rewrite (list_remove_notin l z s H Hs). exists LThrow, l, z. split; [done|]. split; [done|].
      simpl. done.
  - unfold makeemptylist. pose proof H as (_&_&C&_). rewrite C.
    destruct (makeempty_spec z l H) as (l'&->&H'). exists LUnit, l', []. done.
  - rewrite (getfirst_spec l z H). eexists _, l, z. done.
  - rewrite (getlast_spec l z H). eexists _, l, z. done.
  - specialize (Hn s eq_refl). apply elem_of_list_lookup in Hn as [i Hi].
    rewrite (getnext_spec l z i s H Hi). eexists _, l, z. split; [done|]. split; [done|].
    simpl. intros j Hj. destruct H as (_&_&_&_&_&F&_).
    rewrite (NoDup_lookup _ _ _ _ F Hi Hj). done.
  - eexists _, l, z. split; [done|]. split; [done|]. simpl. exists (list_in l s).
    by rewrite (list_in_spec l z s H).
  - eexists _, l, z. split; [done|]. split; [done|]. simpl. exists (list_empty l).
    unfold list_empty. destruct H as (_&_&C&_). rewrite C, Nat.eqb_eq.
    split; [done|]. split; [|done]. destruct z; simpl; split; try done; lia.
Qed.

Lemma lremove_notin s l : s ∉ l -> lremove s l = l.
Proof.
  induction l as [|x l IH]; intros Hl; [done|]. apply not_elem_of_cons in Hl as [Hx Hl].
  unfold lremove. rewrite filter_cons_True by done. f_equal. by apply IH.
Qed.
Lemma lspec_lnext l o r l' : lspec LISTSIZE l o r l' -> (forall s, o = LGetNext s -> s ∈ l) ->
  l' = lnext LISTSIZE l o.
Proof.
  destruct o as [s|s| | | |s|s|]; simpl; intros H Hn.
  - destruct H as [H1 H2]. destruct (decide (s ∈ l)); [apply H1; by left|].
    destruct (Z.ltb_spec (Z.of_nat (length l)) LISTSIZE); [by apply H2|].
    apply H1. right. lia.
  - destruct H as [H1 H2]. destruct (decide (s ∈ l)) as [Hs|Hs]; [by apply H2|].
    rewrite lremove_notin by done. by apply H1.
  - by destruct H.
  - by destruct H.
  - by destruct H.
  - destruct (elem_of_list_lookup_1 _ _ (Hn s eq_refl)) as [i Hi]. by destruct (H i Hi).
  - by destruct H as (?&_&_&?).
  - by destruct H as (?&_&_&?).
Qed.

Lemma lrun_spec os : forall l z, lrep l z -> lallowed LISTSIZE (z.*2) os ->
  exists rs l' z', lrun l os = Ok (rs, l') /\ lrep l' z' /\ lspec_run LISTSIZE (z.*2) os rs (z'.*2).
Proof.
  induction os as [|o os IH]; intros l z H Ha.
  { exists [], l, z. split; [done|]. split; [done|constructor]. }
  destruct Ha as [Ha1 Ha2].
  destruct (lexec_spec l z o H Ha1) as (r&l1&z1&E1&H1&S1).
  pose proof (lspec_lnext _ _ _ _ S1 Ha1) as Hz. rewrite <- Hz in Ha2.
  destruct (IH l1 z1 H1 Ha2) as (rs&l2&z2&E2&H2&S2).
  exists (r :: rs), l2, z2. split_and!; try done.
  - cbn [lrun]. rewrite E1. cbn [obind snd fst]. rewrite E2. done.
  - by econstructor.
Qed.

Lemma list_history os : lallowed LISTSIZE [] os ->
  exists rs l content, lrun new_list os = Ok (rs, l) /\ lspec_run LISTSIZE [] os rs content /\
    NoDup content /\ csize l = length content.
Proof.
  intros Ha. destruct (lrun_spec os new_list [] new_list_lrep Ha) as (rs&l&z&E&H&S).
  exists rs, l, (z.*2). destruct H as (_&_&C&_&_&F&_). split_and!; try done. by rewrite fmap_length.
Qed.

(** Walking the list with getfirst / getnext yields the content in order. *)
Fixpoint walk (fuel : nat) (l : clist) (s : option nat) : outcome clist (list nat) :=
  match s with
  | None => Ok []
  | Some x => match fuel with O => OOF | S f => do n <- getnext l x; do r <- walk f l n; Ok (x :: r) end
  end.
Lemma walk_spec l z n : forall i, lrep l z -> n = length z - i ->
  walk n l (z.*2 !! i) = Ok (drop i (z.*2)).
Proof.
  induction n as [|n IH]; intros i H Hn.
  - rewrite lookup_ge_None_2 by (rewrite fmap_length; lia). simpl.
    rewrite drop_ge; [done|]. rewrite fmap_length; lia.
  - destruct (lookup_lt_is_Some_2 (z.*2) i) as [s Hs]; [rewrite fmap_length; lia|].
    rewrite Hs. cbn [walk]. rewrite (getnext_spec l z i s H Hs). cbn [obind].
    rewrite (IH (S i) H) by lia. cbn [obind]. f_equal. symmetry. by apply drop_S.
Qed.
Lemma list_enumerate os : lallowed LISTSIZE [] os ->
  exists rs l content, lrun new_list os = Ok (rs, l) /\ lspec_run LISTSIZE [] os rs content /\
    (do f <- getfirst l; walk (length content) l f) = Ok content.
Proof.
  intros Ha. destruct (lrun_spec os new_list [] new_list_lrep Ha) as (rs&l&z&E&H&S).
  exists rs, l, (z.*2). split_and!; try done. rewrite (getfirst_spec l z H). cbn [obind].
  rewrite head_lookup. rewrite (walk_spec l z _ 0 H) by (rewrite fmap_length; lia). done.
Qed.
