(** Lemmas for C63 - C66: cells at all levels, the cost of an action. *)
From Verif Require Import Base NavModel LatModel LatSpec LatProofs LatProofs2 LatProofs3 MlevModel MlevSpec.
Local Open Scope Z_scope.

(** ** The invariant of a level *)
Record lev_ok (W H N : Z) (k : nat) (l : level) : Prop := {
  lo_grid : grid_ok W H (vGrid l);
  lo_len : length (vCells l) = Z.to_nat N;
  lo_row : forall t row, vCells l !! t = Some row -> length row = k
}.
Lemma cells_at_spec W H N k l t i : lev_ok W H N k l -> 0 <= t < N -> (i < k)%nat -> cells_at l t (Z.of_nat i) = Ok (swept l t i).
Proof.
  intros O Ht Hi. unfold cells_at, swept. destruct (Z.ltb_spec t 0); [lia|].
  destruct (lookup_lt_is_Some_2 (vCells l) (Z.to_nat t)) as [row Er]; [rewrite (lo_len _ _ _ _ _ O); lia|]. rewrite Er. simpl.
  destruct (lookup_lt_is_Some_2 row i) as [cs Ec]; [rewrite (lo_row _ _ _ _ _ O _ _ Er); lia|]. rewrite Nat2Z.id, Ec. done.
Qed.

Section cost.
Context (e : lat) (I : linv e) (N : Z) (k : nat) (Ls : list level) (OK : forall l, l ∈ Ls -> lev_ok (cW (lC e)) (cH (lC e)) N k l).
Notation obs := (cObs (lC e)).
Lemma vrd_in l x y : l ∈ Ls -> lWithin e x y = true -> exists v, vrd l x y = Ok v /\ vGrid l !! (x, y) = Some v /\ 0 <= v <= 255.
Proof using All.
  rewrite lWithin_iff. intros Hl [Hx Hy]. destruct (lo_grid _ _ _ _ _ (OK l Hl)) as [G1 G2]. destruct (G1 x y Hx Hy) as [v E]. exists v. unfold vrd. rewrite E. apply G2 in E. tauto.
Qed.
Lemma lev_within l x y v : l ∈ Ls -> vGrid l !! (x, y) = Some v -> lWithin e x y = true /\ 0 <= v <= 255.
Proof using All. intros Hl E. apply (lo_grid _ _ _ _ _ (OK l Hl)) in E. rewrite lWithin_iff. tauto. Qed.
Lemma levs_free_spec ls x y : (forall l, l ∈ ls -> l ∈ Ls) -> lWithin e x y = true ->
  exists b, levs_free obs ls x y = Ok b /\ (b = true <-> forall l, l ∈ ls -> free (vGrid l) obs (x, y)).
Proof using All.
  intros Hs Hw. induction ls as [|l ls IH]; simpl.
  - exists true. split; [done|]. split; [|done]. intros _ l H. by apply elem_of_nil in H.
  - destruct (vrd_in l x y) as (v & E & G & _); [apply Hs; left|done|]. rewrite E. simpl. destruct (v >=? obs) eqn:Q.
    + exists false. split; [done|]. split; [done|]. intros F. destruct (F l) as (v' & G' & L'); [left|]. rewrite G in G'. injection G' as <-. lia.
    + destruct IH as (b & Eb & Hb). { intros l' Hl'. apply Hs. by right. }
      exists b. split; [done|]. rewrite Hb. split.
      * intros F l' [-> |Hl']%elem_of_cons; [|auto]. exists v. split; [done|lia].
      * intros F l' Hl'. apply F. by right.
Qed.
Lemma mValid_spec x y : exists b, mValid Ls e x y = Ok b /\ (b = true <-> mfree Ls e (x, y)).
Proof using All.
  unfold mValid. destruct (lValid_spec e I x y) as (b & -> & Hb). simpl. destruct b; simpl.
  - pose proof (proj1 Hb eq_refl) as F. destruct (levs_free_spec Ls x y) as (b & E & H); [done| |].
    { destruct F as (v & G & _). by apply (grid_within e I) in G as [? _]. }
    exists b. split; [done|]. rewrite H. unfold mfree. tauto.
  - exists false. split; [done|]. split; [done|]. intros [F _]. by apply Hb in F.
Qed.
Lemma mValidLev_spec x y lev l : Ls !! lev = Some l -> exists b, mValidLev Ls e x y lev = Ok b /\ (b = true <-> free (vGrid l) obs (x, y)).
Proof using All.
  intros El. pose proof (elem_of_list_lookup_2 _ _ _ El) as Hl. unfold mValidLev, free. destruct (lWithin e x y) eqn:Hw; simpl.
  - rewrite El. destruct (vrd_in l x y Hl Hw) as (v & E & G & _). rewrite E. simpl. eexists. split; [done|]. rewrite G. rewrite Z.ltb_lt. split; [eauto|]. intros (? & [= ->] & ?). done.
  - exists false. split; [done|]. split; [done|]. intros (v & G & _). apply (lev_within l) in G as [G _]; [congruence|done].
Qed.
Lemma mall_valid_spec sx sy l : exists b, mall_valid Ls e sx sy l = Ok b /\ (b = true <-> forall o, o ∈ l -> mfree Ls e (shift (sx, sy) o)).
Proof using All.
  induction l as [|c l IH]; simpl.
  - exists true. split; [done|]. split; [|done]. intros _ o H. by apply elem_of_nil in H.
  - rewrite (Z.add_comm _ sx), (Z.add_comm _ sy). destruct (mValid_spec (sx + c.1) (sy + c.2)) as (b & -> & Hb). simpl. destruct b.
    + destruct IH as (b & E & H). exists b. split; [done|]. rewrite H. split.
      * intros Hl o [-> |Ho]%elem_of_cons; [by apply Hb|by apply Hl].
      * intros Hl o Ho. apply Hl. by right.
    + exists false. split; [done|]. split; [done|]. intros Hl. apply Hb. apply (Hl c). left.
Qed.
Lemma swept_ok_spec sx sy lev l cs : Ls !! lev = Some l -> exists b, swept_ok Ls e sx sy lev cs = Ok b /\ (b = true <-> forall o, o ∈ cs -> free (vGrid l) obs (shift (sx, sy) o)).
Proof using All.
  intros El. induction cs as [|c cs IH]; simpl.
  - exists true. split; [done|]. split; [|done]. intros _ o H. by apply elem_of_nil in H.
  - rewrite (Z.add_comm _ sx), (Z.add_comm _ sy). destruct (mValidLev_spec (sx + c.1) (sy + c.2) lev l El) as (b & -> & Hb). simpl. destruct b.
    + destruct IH as (b & E & H). exists b. split; [done|]. rewrite H. split.
      * intros Hl o [-> |Ho]%elem_of_cons; [by apply Hb|by apply Hl].
      * intros Hl o Ho. apply Hl. by right.
    + exists false. split; [done|]. split; [done|]. intros Hl. apply Hb. apply (Hl c). left.
Qed.
(** What the base class's GetActionCost computes now. *)
Lemma mBaseCost_spec sx sy a p : act_ok a p -> 0 <= pCost p <= 8388607 ->
  let X := executable (lGrid e) obs (cInsc (lC e)) (cCirc (lC e)) (cPoly (lC e)) (sx, sy) p /\ mfree Ls e (sx, sy) /\ mfree Ls e (shift (sx, sy) (pX p, pY p)) /\ base_sweep_free Ls e (sx, sy) p in
  exists c, mBaseCost Ls e sx sy a = Ok c /\ ((X /\ exists m, greatest (lGrid e) (sx, sy) p m /\ c = pCost p * (m + 1)) \/ (~ X /\ c = INFINITECOST)).
Proof using All.
  intros Aok Hc X. destruct (lCost_spec e I sx sy a p Aok Hc) as (c & Ec & Hcost). destruct Aok as (_ & Ax & Ay & _ & Ac & Ai & Aj).
  unfold mBaseCost. unfold lCost in Ec. rewrite Ax, Ay, Ac, Ai, Aj in *. clear Ax Ay Ac Ai Aj a.
  destruct (mValid_spec sx sy) as (v0 & -> & H0). simpl. destruct v0; simpl.
  2: { exists INFINITECOST. split; [done|]. right. split; [|done]. intros (_ & F & _). apply H0 in F. done. }
  pose proof (proj1 H0 eq_refl) as F0. clear H0.
  destruct (mValid_spec (sx + pX p) (sy + pY p)) as (v1 & -> & H1). simpl. destruct v1; simpl.
  2: { exists INFINITECOST. split; [done|]. right. split; [|done]. intros (_ & _ & F & _). apply H1 in F. done. }
  pose proof (proj1 H1 eq_refl) as F1. clear H1.
  destruct (lValid_spec e I sx sy) as (b & Eb & Hb). destruct b; [|exfalso; by discriminate (proj2 Hb (proj1 F0))]. rewrite Eb in Ec. simpl in Ec. clear Eb Hb.
  destruct (lValid_spec e I (sx + pX p) (sy + pY p)) as (b & Eb & Hb). destruct b; [|exfalso; by discriminate (proj2 Hb (proj1 F1))]. rewrite Eb in Ec. simpl in Ec. clear Eb Hb.
  pose proof (proj1 F0) as (gs & G0 & _). pose proof (proj1 F1) as (ge & G1 & _).
  assert (D1 : lrd e (sx + pX p) (sy + pY p) = Ok ge) by (unfold lrd; by rewrite G1). rewrite D1 in *. simpl in *.
  assert (NX : forall (P : Prop), (executable (lGrid e) obs (cInsc (lC e)) (cCirc (lC e)) (cPoly (lC e)) (sx, sy) p /\ exists m, greatest (lGrid e) (sx, sy) p m /\ c = pCost p * (m + 1)) \/
      (~ executable (lGrid e) obs (cInsc (lC e)) (cCirc (lC e)) (cPoly (lC e)) (sx, sy) p /\ c = INFINITECOST) -> (executable (lGrid e) obs (cInsc (lC e)) (cCirc (lC e)) (cPoly (lC e)) (sx, sy) p -> X) ->
      (X /\ exists m, greatest (lGrid e) (sx, sy) p m /\ c = pCost p * (m + 1)) \/ (~ X /\ c = INFINITECOST)).
  { intros _ [[Y Z]|[nY Z]] HX; [left; split; [auto|done]|right; split; [|done]]. intros [Y _]. done. }
  destruct (ge >=? cInsc (lC e)) eqn:Q.
  { exists INFINITECOST. split; [done|]. right. split; [|done]. intros ((_ & _ & F & _) & _). pose proof (F _ G1). lia. }
  destruct (centres_spec e I sx sy (pInterm p) 0) as (m & Em & Hm); [lia|left; apply (grid_within e I) in G1; lia|]. rewrite Em in *. simpl in *. destruct m as [m|].
  2: { exists INFINITECOST. split; [done|]. right. split; [|done]. intros ((_ & _ & _ & F & _) & _). destruct Hm as (o & Ho & Hm). destruct (F o Ho) as (v & Gv & Lv). pose proof (Hm _ Gv). lia. }
  destruct Hm as (M1 & M2 & M3).
  destruct (cPoly (lC e) && (m >=? cCirc (lC e))) eqn:Qp.
  2: { rewrite Ec. eexists. split; [done|]. apply (NX True Hcost). intros Y. split_and!; try done. intros Hp Htr l o Hl Ho. exfalso. rewrite Hp in Qp. simpl in Qp.
    destruct Htr as [Hc0|(o' & v & Ho' & Go & Hv)]; [lia|]. destruct (M1 o' Ho') as (v' & Gv' & _ & Lv). rewrite Go in Gv'. injection Gv' as <-. lia. }
  apply andb_true_iff in Qp as [Hp Qc].
  assert (TR : cCirc (lC e) <= 0 \/ (exists o v, o ∈ pInterm p /\ lGrid e !! shift (sx, sy) o = Some v /\ cCirc (lC e) <= v)).
  { destruct M3 as [-> |(o & Ho & Go)]; [left; lia|]. right. exists o, m. split_and!; [done|done|lia]. }
  destruct (mall_valid_spec sx sy (pInter p)) as (b & -> & Hb). simpl. destruct b; simpl.
  - pose proof (proj1 Hb eq_refl) as FB.
    destruct (all_valid_spec e I sx sy (pInter p)) as (b & Eb & Hb'). destruct b; [|exfalso; discriminate (proj2 Hb' (fun o Ho => proj1 (FB o Ho)))]. rewrite Eb in Ec. simpl in Ec.
    rewrite Ec. eexists. split; [done|]. apply (NX True Hcost). intros Y. split_and!; try done. intros _ _ l o Hl Ho. by apply (proj2 (FB o Ho)).
  - exists INFINITECOST. split; [done|]. right. split; [|done]. intros (Y & _ & _ & BS). assert (false = true); [|done]. apply Hb. intros o Ho. split; [|intros l Hl; by apply BS].
    destruct Y as (_ & _ & _ & _ & Y). by apply Y.
Qed.

(** *** The additional levels *)
Lemma ends_ok_spec ls x y : (forall l, l ∈ ls -> l ∈ Ls) -> lWithin e x y = true ->
  exists b, ends_ok ls x y = Ok b /\ (b = true <-> forall l v, l ∈ ls -> vGrid l !! (x, y) = Some v -> v < vInsc l).
Proof using All.
  intros Hs Hw. induction ls as [|l ls IH]; simpl.
  - exists true. split; [done|]. split; [|done]. intros _ l v H. by apply elem_of_nil in H.
  - destruct (vrd_in l x y) as (v & E & G & _); [apply Hs; left|done|]. rewrite E. simpl. destruct (v >=? vInsc l) eqn:Q.
    + exists false. split; [done|]. split; [done|]. intros F. pose proof (F l v ltac:(left) G). lia.
    + destruct IH as (b & Eb & Hb). { intros l' Hl'. apply Hs. by right. }
      exists b. split; [done|]. rewrite Hb. split.
      * intros F l' v' [-> |Hl']%elem_of_cons G'; [|eauto]. rewrite G in G'. injection G' as <-. lia.
      * intros F l' v' Hl'. apply F. by right.
Qed.
Section add.
Context (sx sy : Z).
Notation at_ l o := (vGrid l !! shift (sx, sy) o).
(** What maxcellcostateachlevel holds for a level when the centre cells [dn] have been visited. *)
Definition mlive (dn : list (Z * Z)) (l : level) (m : Z) : Prop :=
  0 <= m /\ m < vInsc l /\ (forall o, o ∈ dn -> exists v, at_ l o = Some v /\ v < vInsc l /\ v <= m) /\ (m = 0 \/ exists o, o ∈ dn /\ at_ l o = Some m).
(** What maxcellcost holds. *)
Definition mtop (dn : list (Z * Z)) (mx : Z) : Prop :=
  0 <= mx /\ (forall l o v, l ∈ Ls -> o ∈ dn -> at_ l o = Some v -> v <= mx) /\ (mx = 0 \/ exists l o, l ∈ Ls /\ o ∈ dn /\ at_ l o = Some mx).
Lemma centre_levs_spec dn c : lWithin e (sx + c.1) (sy + c.2) = true -> forall ls ms mx, (forall l, l ∈ ls -> l ∈ Ls) -> Forall2 (mlive dn) ls ms ->
  exists r, centre_levs obs ls (sx + c.1) (sy + c.2) ms mx = Ok r /\
    ((Forall2 (mlive (dn ++ [c])) ls r.2 /\ mx <= r.1 /\ (forall l v, l ∈ ls -> at_ l c = Some v -> v <= r.1) /\ (r.1 = mx \/ exists l, l ∈ ls /\ at_ l c = Some r.1)) \/
     (r.1 = obs /\ exists l, l ∈ ls /\ forall v, at_ l c = Some v -> vInsc l <= v)).
Proof using All.
  intros Hw ls. induction ls as [|l ls IH]; intros ms mx Hs F.
  - inversion F; subst. exists (mx, []). split; [done|]. left. simpl. split_and!; [constructor|lia| |by left]. intros l v H. by apply elem_of_nil in H.
  - inversion F as [|? m ? ms' Hm F']; subst. simpl. destruct (vrd_in l (sx + c.1) (sy + c.2)) as (v & E & G & Hv); [apply Hs; left|done|]. rewrite E. simpl.
    destruct Hm as (M0 & M1 & M2 & M3). destruct (Z.max m v >=? vInsc l) eqn:Q.
    + exists (obs, obs :: ms'). split; [done|]. right. split; [done|]. exists l. split; [left|]. intros v' G'. unfold shift in G'. simpl in G'. rewrite G in G'. injection G' as <-. lia.
    + destruct (IH ms' (Z.max mx v)) as (r & Er & Hr); [intros; apply Hs; by right|done|]. rewrite Er. simpl. eexists. split; [done|]. simpl. destruct Hr as [(R1 & R2 & R3 & R4)|(R1 & l' & Hl' & R2)].
      * left. split_and!.
        -- constructor; [|done]. split_and!; [lia|lia| |].
           ++ intros o [Ho| ->%elem_of_list_singleton]%elem_of_app; [|exists v; split_and!; [done|lia|lia]]. destruct (M2 o Ho) as (v' & ? & ? & ?). exists v'. split_and!; [done|done|lia].
           ++ destruct (Z.max_spec m v) as [[? ->]|[? ->]].
              ** right. exists c. split; [|done]. apply elem_of_app. right. by apply elem_of_list_singleton.
              ** destruct M3 as [-> |(o & Ho & Go)]; [by left|]. right. exists o. split; [|done]. apply elem_of_app. by left.
        -- lia.
        -- intros l' v' [-> |Hl']%elem_of_cons G'; [|eauto]. unfold shift in G'. simpl in G'. rewrite G in G'. injection G' as <-. lia.
        -- destruct R4 as [R4|(l' & Hl' & R4)]; [|right; exists l'; split; [by right|done]].
           rewrite R4. destruct (Z.max_spec mx v) as [[? ->]|[? ->]]; [|by left]. right. exists l. split; [left|done].
      * right. split; [done|]. exists l'. split; [by right|done].
Qed.
Definition bad (o : Z * Z) : Prop := exists l, l ∈ Ls /\ forall v, at_ l o = Some v -> vInsc l <= v \/ obs <= v.
Lemma centres_levs_spec cs : Ls <> [] -> forall dn ms mx, Forall2 (mlive dn) Ls ms -> mtop dn mx -> mx < obs ->
  exists r, centres_levs e Ls sx sy cs ms mx = Ok r /\
    ((Forall2 (mlive (dn ++ cs)) Ls r.2 /\ mtop (dn ++ cs) r.1 /\ r.1 < obs) \/ (obs <= r.1 /\ exists o, o ∈ cs /\ bad o)).
Proof using All.
  intros Hne. induction cs as [|c cs IH]; intros dn ms mx F T Hmx; simpl.
  - exists (mx, ms). split; [done|]. left. by rewrite app_nil_r.
  - destruct (Z.ltb_spec mx obs); [|lia]. simpl. rewrite !(Z.add_comm _ sx), !(Z.add_comm _ sy).
    destruct ((sx + c.1 <? 0) || (sx + c.1 >=? cW (lC e)) || (sy + c.2 <? 0) || (sy + c.2 >=? cH (lC e))) eqn:Q.
    + exists (obs, ms). split; [done|]. right. simpl. split; [lia|]. exists c. split; [left|]. assert (Hex : exists l, l ∈ Ls) by (clear -Hne; destruct Ls as [|l ?]; [done|]; exists l; left). destruct Hex as [l Hl]. exists l. split; [done|]. intros v G. exfalso.
      destruct (OK l Hl) as [[_ G2] _ _]. unfold shift in G. simpl in G. apply G2 in G. lia.
    + assert (Hw : lWithin e (sx + c.1) (sy + c.2) = true) by (rewrite lWithin_iff; lia).
      destruct (centre_levs_spec dn c Hw Ls ms mx (fun l H => H) F) as (r & Er & Hr). rewrite Er. simpl. destruct Hr as [(R1 & R2 & R3 & R4)|(R1 & l & Hl & R2)].
      * destruct (Z_lt_le_dec r.1 obs) as [Hlt|Hge].
        -- destruct (IH (dn ++ [c]) r.2 r.1) as (r' & Er' & Hr'); [done| |done|].
           { destruct T as (T0 & T1 & T2). split_and!; [lia| |].
             - intros l o v Hl [Ho| ->%elem_of_list_singleton]%elem_of_app G; [|by eapply R3]. pose proof (T1 l o v Hl Ho G). lia.
             - destruct R4 as [-> |(l & Hl & R4)]; [|right; exists l, c; split_and!; [done| |done]; apply elem_of_app; right; by apply elem_of_list_singleton].
               destruct T2 as [? |(l & o & Hl & Ho & G)]; [by left|]. right. exists l, o. split_and!; [done| |done]. apply elem_of_app. by left. }
           exists r'. split; [done|]. rewrite <- app_assoc in Hr'. destruct Hr' as [?|(? & o & Ho & ?)]; [by left|]. right. split; [done|]. exists o. split; [by right|done].
        -- assert (EC : centres_levs e Ls sx sy cs r.2 r.1 = Ok r). { destruct cs; simpl; [by destruct r|]. destruct (Z.ltb_spec r.1 obs); [lia|]. simpl. by destruct r. }
           rewrite EC. exists r. split; [done|]. right. split; [done|]. exists c. split; [left|]. destruct R4 as [? |(l & Hl & R4)]; [lia|]. exists l. split; [done|]. intros v G. rewrite R4 in G. injection G as <-. by right.
      * assert (EC : centres_levs e Ls sx sy cs r.2 r.1 = Ok r). { destruct cs; simpl; [by destruct r|]. destruct (Z.ltb_spec r.1 obs); [lia|]. simpl. by destruct r. }
        rewrite EC. exists r. split; [done|]. right. split; [lia|]. exists c. split; [left|]. exists l. split; [done|]. intros v G. left. by apply R2.
Qed.
Lemma sweeps_spec a t i cs : 0 <= t < N -> (i < k)%nat -> aStart a = t -> aInd a = Z.of_nat i -> forall rest pre ms mx, Ls = pre ++ rest -> Forall2 (mlive cs) rest ms ->
  exists mx', sweeps Ls e sx sy a (length pre) rest ms mx = Ok mx' /\ 
   (mx < obs -> 
    let good := fun l => vPoly l = true -> vCirc l <= 0 \/ (exists o v, o ∈ cs /\ at_ l o = Some v /\ vCirc l <= v) -> forall o, o ∈ swept l t i -> free (vGrid l) obs (shift (sx, sy) o) in
    (mx' = mx /\ forall l, l ∈ rest -> good l) \/ (obs <= mx' /\ exists l, l ∈ rest /\ ~ good l)) /\
   (obs <= mx -> mx' = mx).
Proof using All.
  intros Ht Hi <- Ei. induction rest as [|l rest IH]; intros pre ms mx EL F.
  - exists mx. split; [done|]. split; [|done]. intros _. left. split; [done|]. intros l H. by apply elem_of_nil in H.
  - destruct ms as [|m ms']; [by inversion F|]. apply Forall2_cons in F as [Hm F']. simpl.
    assert (EL' : Ls = (pre ++ [l]) ++ rest) by (by rewrite <- app_assoc). assert (LP : length (pre ++ [l]) = S (length pre)) by (rewrite app_length; simpl; lia).
    destruct (Z.ltb_spec mx obs) as [Hmx|Hmx]; simpl.
    2: { exists mx. split; [done|]. split; [lia|done]. }
    assert (Elk : Ls !! length pre = Some l) by (rewrite EL; by apply list_lookup_middle).
    assert (Hl : l ∈ Ls) by (by apply elem_of_list_lookup_2 in Elk).
    destruct Hm as (M0 & M1 & M2 & M3).
    set (good := fun l => vPoly l = true -> vCirc l <= 0 \/ (exists o v, o ∈ cs /\ at_ l o = Some v /\ vCirc l <= v) -> forall o, o ∈ swept l (aStart a) i -> free (vGrid l) obs (shift (sx, sy) o)).
    assert (OKb : exists b, (if vPoly l && (m >=? vCirc l) then do cs <- cells_at l (aStart a) (aInd a); swept_ok Ls e sx sy (length pre) cs else Ok true) = Ok b /\ (b = true <-> good l)).
    { destruct (vPoly l && (m >=? vCirc l)) eqn:Q.
      - apply andb_true_iff in Q as [Q1 Q2]. rewrite Ei, (cells_at_spec _ _ _ _ _ _ _ (OK l Hl) Ht Hi). simpl.
        destruct (swept_ok_spec sx sy (length pre) l (swept l (aStart a) i) Elk) as (b & Eb & Hb). exists b. split; [done|]. rewrite Hb. split; [by intros ? _ _|].
        intros Gd. apply Gd; [done|]. destruct M3 as [-> |(o & Ho & Go)]; [left; lia|]. right. exists o, m. split_and!; [done|done|lia].
      - exists true. split; [done|]. split; [|done]. intros _ Q1. rewrite Q1 in Q. simpl in Q. intros [Hc0|(o & v & Ho & Go & Hv)]; [lia|].
        destruct (M2 o Ho) as (v' & Gv' & _ & Lv). rewrite Go in Gv'. injection Gv' as <-. lia. }
    destruct OKb as (b & Eb & Hb). rewrite Eb. simpl.
    destruct (IH (pre ++ [l]) ms' (if b then mx else obs) EL' F') as (mx' & E' & H1 & H2). rewrite LP in E'. exists mx'. split; [done|]. split; [|lia]. intros _. destruct b.
    + destruct (H1 Hmx) as [[-> Hg]|[Hge (l' & Hl' & Hg)]].
      * left. split; [done|]. intros l' [-> |Hl']%elem_of_cons; [by apply Hb|by apply Hg].
      * right. split; [done|]. exists l'. split; [by right|done].
    + right. rewrite (H2 ltac:(lia)). split; [lia|]. exists l. split; [left|]. intros Gd. apply Hb in Gd. done.
Qed.
End add.
Lemma mAddCost_spec sx sy a p i : act_ok a p -> 0 <= pCost p <= 8388607 -> 0 <= pStart p < N -> (i < k)%nat -> aInd a = Z.of_nat i ->
  let Y := mfree Ls e (sx, sy) /\ mfree Ls e (shift (sx, sy) (pX p, pY p)) /\ forall l, l ∈ Ls -> safe_at obs l (sx, sy) p (swept l (pStart p) i) in
  exists c, mAddCost Ls e sx sy a = Ok c /\
    ((Y /\ ((Ls = [] /\ c = 0) \/ Ls <> [] /\ exists m, mtop sx sy (pInterm p) m /\ c = pCost p * (m + 1))) \/ (~ Y /\ c = INFINITECOST)).
Proof using All.
  intros (As & Ax & Ay & _ & Ac & Ai & _) Hc Ht Hi Ei Y. unfold mAddCost. rewrite Ax, Ay, Ac, Ai.
  destruct (mValid_spec sx sy) as (v0 & -> & H0). simpl. destruct v0; simpl.
  2: { exists INFINITECOST. split; [done|]. right. split; [|done]. intros (F & _). apply H0 in F. done. }
  pose proof (proj1 H0 eq_refl) as F0. clear H0.
  destruct (mValid_spec (sx + pX p) (sy + pY p)) as (v1 & -> & H1). simpl. destruct v1; simpl.
  2: { exists INFINITECOST. split; [done|]. right. split; [|done]. intros (_ & F & _). apply H1 in F. done. }
  pose proof (proj1 H1 eq_refl) as F1. clear H1.
  destruct (decide (Ls = [])) as [E|Hne].
  { exists 0. split; [by rewrite E|]. left. split; [|by left]. split_and!; try done. intros l. rewrite E. by intros H%elem_of_nil. }
  assert (Hw : lWithin e (sx + pX p) (sy + pY p) = true). { destruct F1 as [(v & G & _) _]. by apply (grid_within e I) in G as [? _]. }
  destruct (ends_ok_spec Ls (sx + pX p) (sy + pY p)) as (b & Eb & Hb); [done|done|].
  assert (UNF : forall (r : lres Z), match Ls with [] => Ok 0 | _ :: _ => r end = r) by (by destruct Ls). rewrite UNF. rewrite Eb. simpl. destruct b; simpl.
  2: { exists INFINITECOST. split; [done|]. right. split; [|done]. intros (_ & _ & S). assert (false = true); [|done]. apply Hb. intros l v Hl G. destruct (S l Hl) as (_ & _ & S3 & _). by apply S3. }
  pose proof (proj1 Hb eq_refl) as FE. clear Hb Eb.
  assert (POS : forall l, l ∈ Ls -> 0 < vInsc l). { intros l Hl. destruct (vrd_in l _ _ Hl Hw) as (v & _ & G & Hv). pose proof (FE l v Hl G). lia. }
  assert (OBS : 0 < obs). { destruct F0 as [(v & G & L) _]. apply (grid_within e I) in G as [_ ?]. lia. }
  assert (L0 : forall ls, (forall l, l ∈ ls -> 0 < vInsc l) -> Forall2 (mlive sx sy []) ls (map (fun _ => 0) ls)).
  { clear. induction ls as [|l ls IH]; intros H; simpl; constructor; [|apply IH; intros; apply H; by right]. pose proof (H l ltac:(left)). split_and!; [lia|lia|by intros o Ho%elem_of_nil|by left]. }
  assert (T0 : mtop sx sy [] 0). { split_and!; [lia|by intros ? ? ? _ Ho%elem_of_nil|by left]. }
  destruct (centres_levs_spec sx sy (pInterm p) Hne [] _ 0 (L0 Ls POS) T0 OBS) as (r & Er & Hr). rewrite Er. simpl in *.
  destruct Hr as [(R1 & R2 & R3)|(R1 & o & Ho & l & Hl & Hbad)].
  2: { assert (ES : sweeps Ls e sx sy a 0 Ls r.2 r.1 = Ok r.1).
    { destruct Ls as [|l0 ls0]; [done|]. simpl. destruct r.2; [done|]. destruct (Z.ltb_spec r.1 obs); [lia|]. done. }
    rewrite ES. simpl. destruct (r.1 >=? obs) eqn:Q; [|lia]. exists INFINITECOST. split; [done|]. right. split; [|done].
    intros (_ & _ & S). destruct (S l Hl) as (_ & _ & _ & S4 & _). destruct (S4 o Ho) as (v & G & B1 & B2). destruct (Hbad v G); lia. }
  destruct (sweeps_spec sx sy a (pStart p) i (pInterm p) Ht Hi As Ei Ls [] r.2 r.1 eq_refl R1) as (mx & Emx & Hmx & _). simpl in Emx. rewrite Emx. simpl. specialize (Hmx R3).
  destruct Hmx as [[-> Hg]|[Hge (l & Hl & Hng)]].
  - destruct (r.1 >=? obs) eqn:Q; [lia|]. exists (pCost p * (r.1 + 1)). split.
    { f_equal. apply toi32_id. assert (0 <= r.1 <= 255); [|nia]. destruct R2 as (T1 & _ & [-> |(l & [ox oy] & Hl & _ & G)]); [lia|]. by apply (lev_within l) in G as [_ ?]. }
    left. split; [|right; split; [done|]; exists r.1; done]. split_and!; [done|done|]. intros l Hl. split_and!.
    + by apply F0.
    + by apply F1.
    + intros v G. by eapply FE.
    + intros o Ho. apply elem_of_list_lookup in Hl as [j Ej]. destruct (Forall2_lookup_l _ _ _ _ _ R1 Ej) as (m & _ & M0 & M1 & M2 & _). destruct (M2 o Ho) as (v & G & B1 & _). exists v. split_and!; [done|done|].
      pose proof (proj1 (proj2 R2) l o v (elem_of_list_lookup_2 _ _ _ Ej) Ho G). lia.
    + by apply Hg.
  - destruct (mx >=? obs) eqn:Q; [|lia]. exists INFINITECOST. split; [done|]. right. split; [|done]. intros (_ & _ & S). apply Hng. destruct (S l Hl) as (_ & _ & _ & _ & S5). exact S5.
Qed.
Lemma mCost_spec sx sy a p i : act_ok a p -> 0 <= pCost p <= 8388607 -> 0 <= pStart p < N -> (i < k)%nat -> aInd a = Z.of_nat i ->
  exists c, mCost Ls e sx sy a = Ok c /\
    ((mexec Ls e (sx, sy) (pStart p) i p /\ exists m, mgreatest Ls e (sx, sy) p m /\ (c = pCost p * (m + 1) \/ INFINITECOST <= c /\ INFINITECOST <= pCost p * (m + 1))) \/
     (~ mexec Ls e (sx, sy) (pStart p) i p /\ INFINITECOST <= c)).
Proof using All.
  intros Aok Hc Ht Hi Ei. unfold mCost. destruct (mBaseCost_spec sx sy a p Aok Hc) as (b & Eb & Hb). rewrite Eb. simpl. clear Eb.
  destruct (mAddCost_spec sx sy a p i Aok Hc Ht Hi Ei) as (c & Ec & Hcc). 
  assert (NB : ~ mexec Ls e (sx, sy) (pStart p) i p -> (exists r, (if b >=? INFINITECOST then Ok INFINITECOST else do c <- mAddCost Ls e sx sy a; Ok (Z.max b c)) = Ok r /\ INFINITECOST <= r) ->
     exists c0, (if b >=? INFINITECOST then Ok INFINITECOST else do c <- mAddCost Ls e sx sy a; Ok (Z.max b c)) = Ok c0 /\ ((mexec Ls e (sx, sy) (pStart p) i p /\ exists m, mgreatest Ls e (sx, sy) p m /\ (c0 = pCost p * (m + 1) \/ INFINITECOST <= c0 /\ INFINITECOST <= pCost p * (m + 1))) \/
     (~ mexec Ls e (sx, sy) (pStart p) i p /\ INFINITECOST <= c0))).
  { intros Nx (r & Er & Hr). exists r. split; [done|]. by right. }
  destruct Hb as [[(X1 & X2 & X3 & X4) (m & Gm & Em)]|[NX ->]].
  2: { simpl. apply NB; [|exists INFINITECOST; split; [done|lia]]. intros (Y1 & Y2 & Y3). apply NX. split_and!; try done.
    - split; [by destruct Y1|]. intros l Hl. by destruct (Y2 l Hl) as (? & _).
    - split; [by destruct Y1 as (_ & ? & _)|]. intros l Hl. by destruct (Y2 l Hl) as (_ & ? & _). }
  destruct Hcc as [[(Y1 & Y2 & Y3) HM]|[NY ->]].
  2: { assert (Nm : ~ mexec Ls e (sx, sy) (pStart p) i p). { intros (Z1 & Z2 & Z3). apply NY. done. }
    apply NB; [done|]. destruct (b >=? INFINITECOST) eqn:Q; [exists INFINITECOST; split; [done|lia]|]. rewrite Ec. simpl. eexists. split; [done|]. lia. }
  clear NB. assert (EX : mexec Ls e (sx, sy) (pStart p) i p) by done. destruct Gm as [(cc & Hcc & Gcc) UB].
  assert (Bm : 0 <= m <= 255). { destruct cc as [x y]. by apply (grid_within e I) in Gcc as [_ ?]. }
  (* the greatest over all levels *)
  assert (MG : exists M, mgreatest Ls e (sx, sy) p M /\ (Ls = [] /\ c = 0 /\ M = m \/ exists m', c = pCost p * (m' + 1) /\ M = Z.max m m')).
  { assert (CB : counts Ls e (sx, sy) p m). { destruct Hcc as [-> |[-> |(o & Ho & ->)]]; [by left|by right; left|right; right; exists o; split; [done|by left]]. }
    destruct HM as [[EL ->]|[Hne (m' & (T0 & T1 & T2) & ->)]].
    - exists m. split; [|left; done]. split; [done|]. intros v [G|[G|(o & Ho & [G|(l & Hl & _)])]]; [eapply UB; [by left|done]|eapply UB; [by right; left|done]|eapply UB; [right; right; eauto|done]|].
      rewrite EL in Hl. by apply elem_of_nil in Hl.
    - exists (Z.max m m'). split; [|right; eauto]. split.
      + destruct (Z.max_spec m m') as [[? ->]|[? ->]]; [|done]. destruct T2 as [? |(l & o & Hl & Ho & G)]; [lia|]. right; right. exists o. split; [done|]. right. eauto.
      + intros v [G|[G|(o & Ho & [G|(l & Hl & G)])]].
        * assert (v <= m); [|lia]. eapply UB; [by left|done].
        * assert (v <= m); [|lia]. eapply UB; [by right; left|done].
        * assert (v <= m); [|lia]. eapply UB; [right; right; eauto|done].
        * pose proof (T1 l o v Hl Ho G). lia. }
  destruct MG as (M & HMG & HM'). rewrite Em. destruct (pCost p * (m + 1) >=? INFINITECOST) eqn:Q.
  - exists INFINITECOST. split; [done|]. left. split; [done|]. exists M. split; [done|]. right. split; [lia|].
    destruct HM' as [(_ & _ & ->)|(m' & _ & ->)]; nia.
  - rewrite Ec. simpl. eexists. split; [done|]. left. split; [done|]. exists M. split; [done|]. left. destruct HM' as [(_ & -> & ->)|(m' & -> & ->)]; nia.
Qed.
End cost.
