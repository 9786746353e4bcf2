(** Invariants of AD* on the level of what the search sees of every state: a view is a function from ids to records. *)
From Coq Require Import ZifyBool ZifyNat QArith Qround Lqa.
From Verif Require Import Base KeyModel HeapModel HeapProofs ListModel ListProofs AngleModel AngleProofs AraModel AraSpec AraProofs AdModel.
Local Open Scope Z_scope.

Section abs.
Context (G : nat -> list (nat * Z)) (fwd : bool) (start : nat).
Notation view := (nat -> astate).
Notation bp L s := (get_bp fwd (L s)).
Definition Gpos : Prop := forall s t w, (t, w) ∈ G s -> 0 < w.

Record vok (L : view) : Prop := {
  vo_g : forall s, 0 <= sG (L s) <= INFINITECOST;
  vo_v : forall s, 0 <= sV (L s) <= INFINITECOST;
  vo_s : sG (L start) = 0;
  vo_b : bp L start = None
}.
(** Every finite g comes from the best predecessor, except for the states in [ex]. *)
Definition bok (ex : nat -> Prop) (L : view) : Prop :=
  forall t, t <> start -> sG (L t) < INFINITECOST -> ~ ex t -> exists p w, bp L t = Some p /\ (t, w) ∈ G p /\ sV (L p) + w <= sG (L t).
(** Every expanded state has passed its v on, except along the edges in [ex]. *)
Definition iok (ex : nat -> nat -> Z -> Prop) (cur : nat -> Prop) (L : view) : Prop :=
  forall s t w, (t, w) ∈ G s -> sV (L s) < INFINITECOST -> ~ ex s t w -> cur t /\ sG (L t) <= sV (L s) + w.
Definition nobody : nat -> Prop := fun _ => False.
Definition noedge : nat -> nat -> Z -> Prop := fun _ _ _ => False.

(** The best predecessors lead from x back to the start through states that are not underconsistent. *)
Inductive safe (L : view) : nat -> Prop :=
| safe_start : safe L start
| safe_step x p w : x <> start -> bp L x = Some p -> safe L p -> (x, w) ∈ G p -> sV (L p) + w <= sG (L x) -> sG (L x) <= sV (L x) ->
    sG (L x) < INFINITECOST -> safe L x.

Lemma safe_nu L x : vok L -> safe L x -> sG (L x) <= sV (L x).
Proof. intros V [|]; [|done]. rewrite (vo_s _ V). apply (vo_v _ V). Qed.
Lemma safe_fin L x : vok L -> safe L x -> sG (L x) < INFINITECOST.
Proof. intros V [|]; [|done]. rewrite (vo_s _ V). unfold INFINITECOST. lia. Qed.
Lemma safe_frame L L' : (forall x, safe L x -> L' x = L x) -> forall x, safe L x -> safe L' x.
Proof.
  intros HL x Hx. induction Hx as [|x p w Hn Hb Hp IH Hin Hle Hv Hf]; [constructor|].
  assert (safe L x) as Hsx by (econstructor; eauto).
  apply (safe_step _ x p w); rewrite ?(HL x Hsx), ?(HL p Hp); done.
Qed.

(** Relaxing one edge out of a safe state. *)
Lemma safe_lower L L' s t w : vok L -> Gpos -> safe L s -> (t, w) ∈ G s -> sV (L s) + w < sG (L t) -> sV (L s) + w < INFINITECOST ->
  (forall x, x <> t -> L' x = L x) -> sV (L' t) = sV (L t) -> sG (L' t) = sV (L s) + w -> bp L' t = Some s ->
  forall x, safe L x -> safe L' x.
Proof.
  intros V GP Hs Hin Hlt Hfin HL HV HG HB.
  assert (forall x, sV (L' x) = sV (L x)) as HV'. { intros x. destruct (decide (x = t)) as [->|Hx]; [done|by rewrite HL]. }
  assert (forall x, sG (L' x) <= sG (L x)) as HG'. { intros x. destruct (decide (x = t)) as [->|Hx]; [lia|by rewrite HL]. }
  pose proof (GP _ _ _ Hin) as Hw. pose proof (vo_v _ V) as VV. pose proof (vo_g _ V) as VG.
  assert (t <> start) as Hts. { intros ->. rewrite (vo_s _ V) in Hlt. specialize (VV s). lia. }
  assert (forall n x, Z.to_nat (sG (L' x)) = n -> safe L x -> safe L' x) as Hind.
  { intros n. induction (lt_wf n) as [n _ IH]. intros x Hn Hx.
    assert (0 <= sG (L' x)) as Hx0. { destruct (decide (x = t)) as [->|Hxt]; [specialize (VV s); lia|rewrite HL by done; apply VG]. }
    assert (forall y, safe L y -> 0 <= sG (L' y)) as Hy0.
    { intros y _. destruct (decide (y = t)) as [->|Hxt]; [specialize (VV s); lia|rewrite HL by done; apply VG]. }
    destruct (decide (x = start)) as [->|Hxs0]; [constructor|].
    inversion Hx as [|x' p w' Hxs Hb Hp Hin' Hle Hv Hf]; [done|subst x'].
    destruct (decide (x = t)) as [->|Hxt].
    - apply (safe_step _ t s w); try done.
      + apply (IH (Z.to_nat (sG (L' s)))); [|done..]. pose proof (safe_nu _ _ V Hs). pose proof (HG' s). pose proof (Hy0 s Hs). lia.
      + rewrite HV', HG. lia.
      + rewrite HV. lia.
      + lia.
    - apply (safe_step _ x p w'); try (rewrite ?(HL x Hxt); done).
      + apply (IH (Z.to_nat (sG (L' p)))); [|done..]. pose proof (safe_nu _ _ V Hp). pose proof (HG' p). pose proof (Hy0 p Hp).
        pose proof (GP _ _ _ Hin'). rewrite (HL x Hxt) in Hn. lia.
      + rewrite HV', (HL x Hxt). lia. }
  intros x. by apply (Hind (Z.to_nat (sG (L' x)))).
Qed.
(** Lowering v of s to g. *)
Lemma safe_close L L' s : (forall x, x <> s -> L' x = L x) -> sG (L' s) = sG (L s) -> sV (L' s) = sG (L s) -> bp L' s = bp L s ->
  sG (L s) <= sV (L s) -> forall x, safe L x -> safe L' x.
Proof.
  intros HL HG HV HB Hle x Hx. assert (forall y, sG (L' y) = sG (L y) /\ sV (L' y) <= sV (L y) /\ bp L' y = bp L y) as HA.
  { intros y. destruct (decide (y = s)) as [->|Hy]; [rewrite HG, HV, HB; split_and!; [done|lia|done]|rewrite HL by done; split_and!; [done|lia|done]]. }
  induction Hx as [|x p w Hn Hb Hp IH Hin Hl Hv Hf]; [constructor|]. destruct (HA x) as (EG&EV&EB), (HA p) as (EGp&EVp&EBp).
  apply (safe_step _ x p w); rewrite ?EG, ?EB; try done; [lia|]. destruct (decide (x = s)) as [->|Hy]; [lia|]. by rewrite HL.
Qed.

(** The frontier of the states that still have to pass on a better value, along any route. *)
Lemma frontier_abs L cur W hh : vok L -> iok noedge cur L -> (forall c, c <= W c) -> (forall s t w, (t, w) ∈ G s -> hh s <= W w + hh t) -> Gpos ->
  forall y C, sr G W start y C -> sV (L y) <= C \/ exists x Cx, sr G W start x Cx /\ sG (L x) <= Cx < sV (L x) /\ Cx + hh x <= C + hh y.
Proof.
  intros V I HW HH GP y C Hr. induction Hr as [|s t w C Hr IH Hin].
  - destruct (decide (sV (L start) <= 0)) as [?|?]; [by left|]. right. exists start, 0. rewrite (vo_s _ V). split_and!; [constructor|lia..].
  - pose proof (HW w). pose proof (GP _ _ _ Hin). pose proof (HH _ _ _ Hin). pose proof (vo_v _ V t).
    destruct IH as [IH|(x&Cx&?&?&?)]; [|right; exists x, Cx; split_and!; [done|lia..]].
    destruct (decide (sV (L s) < INFINITECOST)) as [Hf|Hf]; [|left; lia].
    destruct (I _ _ _ Hin Hf) as [_ Hg]; [intros []|].
    destruct (decide (sV (L t) <= C + W w)) as [?|?]; [by left|]. right. exists t, (C + W w). split_and!; [by econstructor|lia..].
Qed.

(** What is known once a solution with bound [B] = g(goal) was found for the weights W and inflated heuristic hh. *)
Definition phi (W : Z -> Z) (hh : nat -> Z) (B : Z) (L : view) : Prop :=
  forall y C, sr G W start y C -> sV (L y) <= C \/ B <= C + hh y.

Lemma phi_mono W hh B B' L L' : phi W hh B L -> B' <= B -> (forall y, sV (L' y) <= sV (L y) \/ B <= sV (L y) + hh y) -> phi W hh B' L'.
Proof. intros P HB HV y C Hr. destruct (P y C Hr) as [?|?]; [|right; lia]. destruct (HV y); [left; lia|right; lia]. Qed.
End abs.

Section heur.
Context (G : nat -> list (nat * Z)) (H : nat -> Z) (fwd : bool) (start : nat).
Notation vok := (vok fwd start).
Notation bok := (bok G fwd start).
Notation safe := (safe G fwd start).
Notation Gpos := (Gpos G).
Definition hcons : Prop := forall s t w, (t, w) ∈ G s -> H s <= w + H t.
Definition psi (B : Z) (L : nat -> astate) : Prop := forall u, sV (L u) < sG (L u) -> B < sV (L u) + H u.
(** If no underconsistent state has v + h <= K, then every other state with g + h <= K is safe. *)
Lemma safe_key L K : vok L -> Gpos -> hcons -> bok nobody L -> (forall u, sV (L u) < sG (L u) -> K < sV (L u) + H u) ->
  forall y, sG (L y) <= sV (L y) -> sG (L y) < INFINITECOST -> sG (L y) + H y <= K -> safe L y.
Proof.
  intros V GP HC HB HU. assert (forall n y, Z.to_nat (sG (L y)) = n -> sG (L y) <= sV (L y) -> sG (L y) < INFINITECOST -> sG (L y) + H y <= K -> safe L y) as Hind.
  { intros n. induction (lt_wf n) as [n _ IH]. intros y Hn Hv Hf Hk. destruct (decide (y = start)) as [->|Hy]; [constructor|].
    destruct (HB y Hy Hf) as (p&w&Hb&Hin&Hle); [intros []|]. pose proof (GP _ _ _ Hin). pose proof (HC _ _ _ Hin).
    pose proof (vo_g _ _ _ V p). pose proof (vo_g _ _ _ V y).
    assert (sG (L p) <= sV (L p)) as Hp. { destruct (decide (sV (L p) < sG (L p))) as [Hu|?]; [|lia]. specialize (HU p Hu). lia. }
    apply (safe_step _ _ _ _ y p w); try done. apply (IH (Z.to_nat (sG (L p)))); try lia. }
  intros y. by apply (Hind (Z.to_nat (sG (L y)))).
Qed.

End heur.
