(** A whole call of replan, and all histories of calls. *)
From Coq Require Import ZifyBool ZifyNat QArith Qround Lqa.
From Verif Require Import Base KeyModel HeapModel HeapProofs AngleModel AngleProofs AraModel AraSpec AraProofs AraPath MhaProofs LazyModel LazySpec LazyPq LazyProofs LazyProofs2 LazyProofs3 LazyProofs4.
Local Open Scope Z_scope.
Notation idw := (fun x : Z => x).

(** More fuel does not change a result. *)
Lemma bind_mono {X A B} (x x' : outcome X A) (f f' : A -> outcome X B) r : (forall a, x = Ok a -> x' = Ok a) -> (forall a, f a = Ok r -> f' a = Ok r) -> obind x f = Ok r -> obind x' f' = Ok r.
Proof. intros H1 H2. destruct x as [a| | |]; try done. rewrite (H1 a eq_refl). cbn. apply H2. Qed.
Lemma limprove_mono e fwd first clk eps iter rep goal f : forall f' c n r, (f <= f')%nat ->
  limprove_loop e fwd f first clk eps iter rep goal c n = Ok r -> limprove_loop e fwd f' first clk eps iter rep goal c n = Ok r.
Proof.
  induction f as [|f IH]; intros f' c n r Hf; [done|]. destruct f' as [|f']; [lia|]. cbn [limprove_loop].
  apply bind_mono; [done|]. intros ga. apply bind_mono; [done|]. intros mk.
  destruct (negb (emptyheap (kOpen c)) && _ && _ && _); [|done]. destruct (first || clk n); [|done].
  apply bind_mono; [done|]. intros d. apply bind_mono; [done|]. intros a. destruct (lV a =? lG a); [done|].
  apply bind_mono; [done|]. intros c'. apply IH. lia.
Qed.
Lemma LImprove_mono e fwd first clk eps iter rep goal f f' c n r : (f <= f')%nat ->
  LImprovePath e fwd f first clk eps iter rep goal c n = Ok r -> LImprovePath e fwd f' first clk eps iter rep goal c n = Ok r.
Proof. intros Hf. unfold LImprovePath. apply bind_mono; [|done]. intros a. by apply limprove_mono. Qed.
Lemma lsearch_mono e fwd clk q rep goal f : forall f' eps sat iter c st n r, (f <= f')%nat ->
  lsearch_loop f e fwd clk q rep goal eps sat iter c st n = Ok r -> lsearch_loop f' e fwd clk q rep goal eps sat iter c st n = Ok r.
Proof.
  induction f as [|f IH]; intros f' eps sat iter c st n r Hf; [done|]. destruct f' as [|f']; [lia|]. cbn [lsearch_loop].
  destruct (Qltb (xFinal q) sat); [|done]. destruct (xFirst q || clk n); [|done].
  apply bind_mono; [intros a; by apply LImprove_mono|]. intros a. destruct (a.1.1 =? 0); [done|]. destruct (xFirst q || (a.1.1 =? 2)); [done|].
  apply bind_mono; [done|]. intros c'. apply IH. lia.
Qed.
Lemma lreplan_mono f f' e clk p q r : (f <= f')%nat -> lreplan f e clk p q = Ok r -> lreplan f' e clk p q = Ok r.
Proof.
  intros Hf. unfold lreplan. destruct (zGoal p); [|done]. destruct (zStart p); [|done].
  apply bind_mono; [done|]. intros i. apply bind_mono; [|done]. intros a. by apply lsearch_mono.
Qed.

(** Routes a user sees and routes of the search graph. *)
Section routes.
Context (e : lenv) (fwd : bool) (E : Q) (N : nat) (rep : Z) (start goal : nat).
Context (HG : good_lenv fwd E N e) (Hz : zero_at e fwd goal) (Hrep : 0 <= rep < 65535) (HsN : (start < N)%nat) (HgN : (goal < N)%nat).
Lemma Hnn W l a b C : route (inflate W) (sedge e fwd) l a b C -> 0 <= C.
Proof using All.
  intros R. induction R as [|a b l z w C Hab R IH]; [lia|].
  pose proof (inflate_ge W w). pose proof (sedge_range e fwd E N rep start goal HG Hz Hrep HsN HgN a b w Hab). lia.
Qed.
Lemma route_srg eps l s C C0 : route (inflate eps) (sedge e fwd) l s goal C -> srg e fwd start goal (inflate eps) s C0 ->
  exists C', srg e fwd start goal (inflate eps) goal C' /\ C' <= C0 + C.
Proof using All.
  intros R. remember goal as z eqn:Ez in R. revert C0. induction R as [a|a b l z w C Hab R IH]; intros C0 HS.
  { exists C0. subst. split; [done|lia]. }
  destruct (decide (a = goal)) as [->|Hag].
  - exists C0. split; [done|]. pose proof (Hnn _ _ _ _ _ (route_cons _ _ _ _ _ _ _ _ Hab R)). lia.
  - destruct (IH Ez (C0 + inflate eps w)) as (C'&?&?); [by econstructor|]. exists C'. split; [done|lia].
Qed.
Lemma user_route eps l C : route (inflate eps) (real_edge e fwd) l (pa fwd start goal) (pz fwd start goal) C ->
  exists C', srg e fwd start goal (inflate eps) goal C' /\ C' <= C.
Proof using All.
  intros R.
  assert (exists l', route (inflate eps) (sedge e fwd) l' start goal C) as [l' R'].
  { pose proof (sedge_real e fwd) as HS. unfold pa, pz in R. destruct fwd.
    - exists l. eapply route_impl'; [|exact R]. intros u w x Hx. by apply HS.
    - exists (reverse l). eapply route_rev'; [exact R|]. intros u w x Hx. by apply HS. }
  destruct (route_srg eps l' start C 0 R') as (C'&?&?); [constructor|]. exists C'. split; [done|lia].
Qed.
End routes.

Lemma least_le e fwd l a b C Cx ok goal : informed fwd e -> (ok = false -> True) -> route idw (pedge e fwd goal ok) l a b C -> route idw (least e fwd) l a b Cx -> Cx <= C.
Proof.
  intros Hin _ R. revert Cx. induction R as [a|a b l z w C Hab R IH]; intros Cx R2; inversion R2; subst; [lia|].
  match goal with H : route _ _ (b :: l) b z _ |- _ => specialize (IH _ H) end.
  match goal with H : least _ _ _ _ _ |- _ => destruct H as [_ Hl] end.
  enough (c <= w) by lia. destruct Hab as [[Hr|(c0&Hr&Hc&Hw)]|(_&_&Hr)]; [by eapply Hl| |by eapply Hl].
  pose proof (Hl _ _ Hr). pose proof (in_est _ _ Hin _ _ _ Hr). lia.
Qed.
Lemma informed_inf e fwd : informed fwd e -> inf e fwd.
Proof.
  intros [H1 H2]. unfold listed, real_edge in *. split.
  - intros p t c Hin Ht. unfold lnbrs, ltcost in *. destruct fwd; by apply H1.
  - intros p t w Hs. pose proof (proj1 (sedge_real e fwd p t w) Hs) as Hr. unfold lheur. destruct fwd; by apply H2.
Qed.

(** * The invariant of planner objects between calls *)
Record RI (fwd : bool) (n : nat) (p : lazy) : Prop := {
  r_fwd : zFwd p = fwd;
  r_heap : exists m, HeapProofs.rep (kOpen (zC p)) m;
  r_st : forall s a, kSt (zC p) !! s = Some a -> lRep a <= zRep p;
  r_rep : 0 <= zRep p <= Z.of_nat n
}.

(** Result of a call with start and goal. *)
Definition call_ok (e : lenv) (fwd : bool) (clk : nat -> bool) (q : lparams) (start goal : nat) (b : bool) (o : option (list nat * Z)) (p' : lazy) : Prop :=
  zGoal p' = None /\ zStart p' = None /\
  if b then exists l C Cx ok, o = Some (l, Cx) /\ route idw (pedge e fwd goal ok) l (pa fwd start goal) (pz fwd start goal) C /\
     route idw (least e fwd) l (pa fwd start goal) (pz fwd start goal) Cx /\ (no_timeout q clk -> ok = true) /\
     (inf e fwd -> no_timeout q clk -> forall C', srg e fwd start goal (inflate (xInit q)) goal C' -> C <= C') /\
     (no_timeout q clk -> xFirst q = true -> lsolution_eps p' = xInit q) /\
     (inf e fwd -> alltrue e fwd -> (0 <= lsolution_eps p' < inject_Z INFINITECOST)%Q -> forall C', srg e fwd start goal (inflate (lsolution_eps p')) goal C' -> C <= C')
  else o = Some ([], 0) /\ (no_timeout q clk -> inf e fwd -> forall C', srg e fwd start goal (inflate (xInit q)) goal C' -> INFINITECOST <= C').

Lemma replan_spec fwd n p E N k e clk q gid sid : RI fwd n p -> Z.of_nat n < 65534 -> good_lenv fwd E N e -> good_lparams E k q -> clock_ok clk ->
  zGoal p = Some gid -> zStart p = Some sid -> (gid < N)%nat -> (sid < N)%nat -> zero_at e fwd (if fwd then gid else sid) ->
  exists f0 b o p', (forall fuel, (f0 <= fuel)%nat -> lreplan fuel e clk p q = Ok (b, o, p')) /\ RI fwd (S n) p' /\
    call_ok e fwd clk q (if fwd then sid else gid) (if fwd then gid else sid) b o p'.
Proof.
  intros [Hf Hh Hst Hr] Hn HG Hq Hclk Hg Hs HgN HsN Hz. set (start := if fwd then sid else gid). set (goal := if fwd then gid else sid). fold goal in Hz.
  assert (start < N)%nat as HsN' by (unfold start; by destruct fwd). assert (goal < N)%nat as HgN' by (unfold goal; by destruct fwd).
  set (rep := u16 (zRep p + 1)). assert (rep = zRep p + 1) as Hrep by (apply u16_id; lia).
  assert (0 <= rep < 65535) as Hrr by lia.
  destruct (linit_spec e fwd E N rep start goal HG Hz Hrr HsN' HgN' q (zC p) Hh) as (c&m&E1&I&Hm&L1&L2).
  { intros s a Ha. specialize (Hst s a Ha). lia. }
  { by destruct Hq as [(?&_) _]. }
  replace (if fwd then goal else start) with gid in E1 by (unfold start, goal; by destruct fwd).
  replace (if fwd then start else goal) with sid in E1 by (unfold start, goal; by destruct fwd).
  set (f0 := (Phi e fwd N rep 0 c + S k * S (Kc e fwd N) + 2)%nat).
  assert (LI e fwd N rep start goal clk q (xInit q) (inject_Z INFINITECOST) 0 false c m [] 0) as HLI.
  { assert (lV (lkz e fwd rep c goal) = INFINITECOST) as Hv.
    { destruct (decide (goal = start)) as [->|Hn']; [by rewrite L1|by rewrite L2]. }
    split; try done.
    - rewrite Hv. apply (v_rng _ _ _ _ _ _ _ _ _ _ _ _ I).
    - left. split_and!; try done. intros _. by apply BI_init. }
  destruct (search_loop_spec e fwd E N rep start goal HG Hz Hrr HsN' HgN' clk q k Hclk Hq k f0 (xInit q) (inject_Z INFINITECOST) 0 c m [] 0 HLI) as (b&c'&st'&n'&E2&HLR).
  { by destruct Hq as [(?&_) _]. }
  { lia. }
  { destruct Hq as [_ ?]. lia. }
  { by destruct Hq as [(_&_&_&_&?) _]. }
  { unfold f0. lia. }
  assert (forall fuel, (f0 <= fuel)%nat -> lsearch_loop fuel e fwd clk q rep goal (xInit q) (inject_Z INFINITECOST) 0 c [] 0 = Ok (b, c', st', n')) as E2'.
  { intros fuel Hfu. by apply (lsearch_mono _ _ _ _ _ _ f0). }
  destruct HLR as (eps&iter&late&m'&I'&He&Hi&Hgv&Hlate&HR).
  assert (forall c2, (exists m, HeapProofs.rep (kOpen c2) m) -> vrep rep c2 -> RI fwd (S n) (mkLazy c2 rep None None fwd st' q)) as HRI.
  { intros c2 H1 H2. split; cbn; [done|done|done|lia]. }
  assert (exists m, HeapProofs.rep (kOpen c') m) as Hh'. { exists m'. apply (v_heap _ _ _ _ _ _ _ _ _ _ _ _ I'). }
  pose proof (v_rep _ _ _ _ _ _ _ _ _ _ _ _ I') as Hv'.
  exists f0. destruct b.
  - destruct HR as [HR1 HR2]. destruct (decide (lG (lkz e fwd rep c' goal) = INFINITECOST)) as [Hinf|Hfin].
    + exists false, (Some ([], 0)), (mkLazy c' rep None None fwd st' q). split_and!; [|by apply HRI|].
      * intros fuel Hfu. unfold lreplan. rewrite Hg, Hs, Hf. fold rep. rewrite E1. cbn [obind fst snd]. rewrite (E2' fuel Hfu). cbn [obind fst snd].
        rewrite (lz_rd e fwd rep) by apply (v_lz _ _ _ _ _ _ _ _ _ _ _ _ I'). cbn [obind]. by rewrite Hinf, Z.eqb_refl.
      * split_and!; try done. intros Hnt _. destruct (HR1 Hnt) as (?&_). lia.
    + pose proof (v_rng _ _ _ _ _ _ _ _ _ _ _ _ I' goal) as Hrng.
      destruct (getpath_spec e fwd E N rep start goal HG Hz Hrr HsN' HgN' eps iter late c' m' He Hi I' Hgv) as (l&C&Cx&c2&E3&K1&K2&K3&K4&K5); [lia|by intros Ht; destruct (Hlate Ht)|].
      exists true, (Some (l, Cx)), (mkLazy c2 rep None None fwd st' q). split_and!; [|apply HRI; [by rewrite K1|done]|].
      * intros fuel Hfu. unfold lreplan. rewrite Hg, Hs, Hf. fold rep. rewrite E1. cbn [obind fst snd]. rewrite (E2' fuel Hfu). cbn [obind fst snd].
        rewrite (lz_rd e fwd rep) by apply (v_lz _ _ _ _ _ _ _ _ _ _ _ _ I'). cbn [obind].
        replace (lG (lkz e fwd rep c' goal) =? INFINITECOST) with false by lia. rewrite E3. done.
      * split_and!; try done. eexists l, C, Cx, _. split; [done|]. split; [exact K4|]. split; [done|]. split_and!.
        -- intros Hnt. destruct (HR1 Hnt) as (Hv&_). replace (lV (lkz e fwd rep c' goal) <? INFINITECOST) with true by lia.
           destruct late; [|done]. by destruct (Hlate eq_refl).
        -- intros Hin Hnt C' HC'. destruct (HR1 Hnt) as (Hv&HB&_). replace (lV (lkz e fwd rep c' goal) <? INFINITECOST) with true in K3 by lia.
           specialize (HB Hin C' HC'). lia.
        -- intros Hnt Hx. destruct (HR1 Hnt) as (_&_&HL). unfold lsolution_eps. cbn. by rewrite HL.
        -- intros Hin Ha Hle C' HC'. unfold lsolution_eps in *. cbn [zStats] in *. destruct (last st') as [x|] eqn:El; [|lra].
           destruct (HR2 Hin Ha x eq_refl) as [Hv HB]; [lra|]. replace (lV (lkz e fwd rep c' goal) <? INFINITECOST) with true in K3 by lia.
           specialize (HB C' HC'). lia.
  - destruct HR as [HR1 HR2]. exists false, (Some ([], 0)), (mkLazy c' rep None None fwd st' q). split_and!; [|by apply HRI|].
    + intros fuel Hfu. unfold lreplan. rewrite Hg, Hs, Hf. fold rep. rewrite E1. cbn [obind fst snd]. by rewrite (E2' fuel Hfu).
    + split_and!; try done.
Qed.

Lemma lfree_spec fwd n p : RI fwd n p -> exists p', lfree p = Ok p' /\ RI fwd n p'.
Proof.
  intros [Hf [m Hh] Hst Hr]. unfold lfree. destruct (makeemptyheap_spec ckeyops _ _ Hh) as (h0&Eh0&Rh0&Oh0). rewrite Eh0. cbn [llift obind].
  eexists. split; [done|]. split; cbn; try done. by exists ∅.
Qed.
Lemma lreach_RI fwd n p : lreach fwd n p -> Z.of_nat n < 65535 -> RI fwd n p.
Proof.
  induction 1 as [|n p s H IH|n p s H IH|n p b H IH|n p x H IH|n p p' H IH Hfr|n p E N k fuel e clk q r p' H IH HG Hq Hclk HsN HgN Hz Hrun]; intros Hn.
  - split; cbn; try done; try lia. exists ∅. by apply (new_heap_rep ckeyops HEAPSIZE_INIT).
  - destruct (IH Hn) as [? ? ? ?]. unfold lset_goal. destruct (zFwd p) eqn:?; split; cbn; done.
  - destruct (IH Hn) as [? ? ? ?]. unfold lset_start. destruct (zFwd p) eqn:?; split; cbn; done.
  - destruct (IH Hn) as [? ? ? ?]. split; cbn; done.
  - destruct (IH Hn) as [? ? ? ?]. split; cbn; done.
  - destruct (lfree_spec fwd n p (IH Hn)) as (p1&E1&?). rewrite E1 in Hfr. by injection Hfr as <-.
  - specialize (IH ltac:(lia)). 
    destruct (zGoal p) as [gid|] eqn:Eg; [destruct (zStart p) as [sid|] eqn:Es|].
    + destruct (replan_spec fwd n p E N k e clk q gid sid IH ltac:(lia) HG Hq Hclk Eg Es (HgN _ eq_refl) (HsN _ eq_refl)) as (f0&b&o&p1&Hall&HR&_).
      { apply Hz. by destruct fwd. }
      specialize (Hall (f0 `max` fuel)%nat ltac:(lia)). apply (lreplan_mono _ (f0 `max` fuel)%nat) in Hrun; [|lia]. rewrite Hrun in Hall. by injection Hall as _ <-.
    + unfold lreplan in Hrun. rewrite Eg, Es in Hrun. injection Hrun as _ <-. destruct IH. split; cbn; try done. lia.
    + unfold lreplan in Hrun. rewrite Eg in Hrun. injection Hrun as _ <-. destruct IH. split; cbn; try done. lia.
Qed.
