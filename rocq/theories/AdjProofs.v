(** Proofs for the adjacency list environment. *)
From Verif Require Import Base MdpModel AraModel AdjModel AdjSpec.
From Coq Require Import ZifyBool ZifyNat.
Local Open Scope Z_scope.

Section edges.
(** Association lists with distinct keys. *)
Lemma set_edge_keys l k c : NoDup (l.*1) -> NoDup ((set_edge l k c).*1) /\ (forall j, j ∈ (set_edge l k c).*1 <-> j = k \/ j ∈ l.*1).
Proof.
  induction l as [|[j d] l IH]; cbn; intros Hn.
  - split; [repeat constructor; set_solver|set_solver].
  - apply NoDup_cons in Hn as (Hj&Hn). destruct (Nat.eqb_spec j k) as [->|Hne]; cbn.
    + split; [by constructor|set_solver].
    + destruct (IH Hn) as (I1&I2). split; [constructor; [|done]; rewrite I2; set_solver|]. intros x. rewrite !elem_of_cons, I2. tauto.
Qed.
Lemma set_edge_in l k c j d : NoDup (l.*1) -> (j, d) ∈ set_edge l k c <-> (j = k /\ d = c) \/ (j <> k /\ (j, d) ∈ l).
Proof.
  induction l as [|[i x] l IH]; cbn; intros Hn.
  - rewrite elem_of_list_singleton, elem_of_nil. naive_solver.
  - apply NoDup_cons in Hn as (Hi&Hn). destruct (Nat.eqb_spec i k) as [->|Hne]; rewrite !elem_of_cons.
    + split; [intros [[= -> ->]|Hin]; [by left|right]|intros [[-> ->]|[Hjk [[= -> ->]|Hin]]]; [by left|done|by right]].
      split; [intros ->; apply Hi, elem_of_list_fmap; by exists (k, d)|by right].
    + rewrite IH by done. naive_solver.
Qed.
Lemma erase_keys l k : NoDup (l.*1) -> NoDup ((erase_to k l).*1) /\ (forall j, j ∈ (erase_to k l).*1 -> j ∈ l.*1).
Proof.
  induction l as [|[j d] l IH]; cbn; intros Hn; [done|]. apply NoDup_cons in Hn as (Hj&Hn). destruct (Nat.eqb_spec j k) as [->|Hne]; cbn.
  - split; [done|]. set_solver.
  - destruct (IH Hn) as (I1&I2). split; [constructor; [|done]; intros Hx; by apply Hj, I2|]. intros x. rewrite !elem_of_cons. naive_solver.
Qed.
Lemma erase_in l k j d : NoDup (l.*1) -> (j, d) ∈ erase_to k l <-> j <> k /\ (j, d) ∈ l.
Proof.
  induction l as [|[i x] l IH]; cbn; intros Hn.
  - rewrite elem_of_nil. tauto.
  - apply NoDup_cons in Hn as (Hi&Hn). destruct (Nat.eqb_spec i k) as [->|Hne]; rewrite !elem_of_cons.
    + split; [intros Hin|naive_solver]. split; [intros ->; apply Hi, elem_of_list_fmap; by exists (k, d)|by right].
    + rewrite IH by done. naive_solver.
Qed.
End edges.

Section adj.
Context {C : Type} `{Countable C}.
Implicit Types (e : adjenv (C := C)) (g : roadmap C).

(** The environment represents the roadmap. *)
Record rep e g : Prop := {
  rp_pts : jPts e = rPts g;
  rp_nodup : NoDup (rPts g);
  rp_ids : forall c i, jIds e !! c = Some i <-> rPts g !! i = Some c;
  rp_len : length (jAdj e) = length (rPts g);
  rp_map : (length (rPts g) <= jMap e)%nat;
  rp_start : jStart e = rStart g;
  rp_goal : jGoal e = rGoal g;
  rp_keys : forall i l, jAdj e !! i = Some l -> NoDup (l.*1);
  rp_edge : forall i a l, rPts g !! i = Some a -> jAdj e !! i = Some l -> forall j k, (j, k) ∈ l <-> exists b, rPts g !! j = Some b /\ rCost g a b = Some k;
  rp_sym : forall a b, rCost g a b = rCost g b a;
  rp_irr : forall a, rCost g a a = None;
  rp_in : forall a b k, rCost g a b = Some k -> a ∈ rPts g /\ b ∈ rPts g
}.

Lemma rep_new : rep new_adj no_roadmap.
Proof.
  constructor; cbn; try done; try lia.
  constructor.
Qed.

Lemma rep_lookup e g i a : rep e g -> rPts g !! i = Some a -> exists l, jAdj e !! i = Some l.
Proof. intros R Hi. apply lookup_lt_Some in Hi. rewrite <- (rp_len _ _ R) in Hi. by apply lookup_lt_is_Some in Hi as [l ?]; eauto. Qed.

Lemma rep_add e g c : rep e g -> c ∉ rPts g -> rep (addPoint e c) (mkRoad (rPts g ++ [c]) (rCost g) (rStart g) (rGoal g)).
Proof.
  intros R Hc. pose proof R as [R1 R2 R3 R4 R4' R5 R6 R7 R8 R9 R10 R11]. constructor; cbn; try done.
  - by rewrite R1.
  - apply NoDup_app. split_and!; [done| |repeat constructor; set_solver]. intros x Hx ->%elem_of_list_singleton. done.
  - intros c' i. rewrite R1. destruct (decide (c' = c)) as [->|Hne].
    + rewrite lookup_insert. split.
      * intros [= <-]. by rewrite lookup_app_r, Nat.sub_diag by lia.
      * intros [Hx|(Hle&Hx)]%lookup_app_Some; [by apply elem_of_list_lookup_2 in Hx|]. f_equal.
        apply lookup_lt_Some in Hx. cbn in Hx. lia.
    + rewrite lookup_insert_ne by done. rewrite R3. split.
      * intros Hx. by rewrite lookup_app_l by (by eapply lookup_lt_Some).
      * intros [Hx|(Hle&Hx)]%lookup_app_Some; [done|]. apply list_lookup_singleton_Some in Hx as (_&->). done.
  - rewrite !app_length, R4. done.
  - rewrite app_length. cbn. lia.
  - intros i l [Hx|(Hle&Hx)]%lookup_app_Some; [by eapply R7|]. apply list_lookup_singleton_Some in Hx as (_&<-). constructor.
  - intros i a l [Hi|(Hle&Hi)]%lookup_app_Some Hl j k.
    + apply lookup_app_Some in Hl as [Hl|(Hle'&_)]; [|apply lookup_lt_Some in Hi; lia].
      rewrite (R8 i a l Hi Hl j k). split; intros (b&Hb&Hk); exists b; split; try done.
      * by rewrite lookup_app_l by (by eapply lookup_lt_Some).
      * apply lookup_app_Some in Hb as [Hb|(_&Hb)]; [done|]. apply list_lookup_singleton_Some in Hb as (_&->).
        destruct (R11 _ _ _ Hk) as (_&?). done.
    + apply list_lookup_singleton_Some in Hi as (_&->). apply lookup_app_Some in Hl as [Hl|(_&Hl)]; [apply lookup_lt_Some in Hl; lia|].
      apply list_lookup_singleton_Some in Hl as (_&<-). split; [by intros ?%elem_of_nil|]. intros (b&_&Hk). destruct (R11 _ _ _ Hk) as (?&_). done.
  - intros a b k Hk. destruct (R11 _ _ _ Hk). set_solver.
Qed.

Lemma rep_cost e g a b k : rep e g -> a ∈ rPts g -> b ∈ rPts g -> a <> b ->
  exists e', setCost e a b k = Ok e' /\ rep e' (mkRoad (rPts g) (fun x y => if decide ((x, y) = (a, b) \/ (x, y) = (b, a)) then Some k else rCost g x y) (rStart g) (rGoal g)).
Proof.
  intros R (i&Hi)%elem_of_list_lookup (j&Hj)%elem_of_list_lookup Hne. pose proof R as [R1 R2 R3 R4 R4' R5 R6 R7 R8 R9 R10 R11].
  unfold setCost. rewrite (proj2 (R3 a i) Hi), (proj2 (R3 b j) Hj).
  assert (i <> j) as Hij by congruence.
  destruct (rep_lookup _ _ _ _ R Hi) as (li&Eli). destruct (rep_lookup _ _ _ _ R Hj) as (lj&Elj).
  unfold set_dir. rewrite Eli. cbn [obind jAdj]. rewrite list_lookup_insert_ne by done. rewrite Elj. eexists. split; [reflexivity|].
  assert (forall i' l', <[j:=set_edge lj i k]> (<[i:=set_edge li j k]> (jAdj e)) !! i' = Some l' <->
    (i' = j /\ l' = set_edge lj i k) \/ (i' = i /\ l' = set_edge li j k) \/ (i' <> i /\ i' <> j /\ jAdj e !! i' = Some l')) as HL.
  { intros i' l'. apply lookup_lt_Some in Eli as Hli. apply lookup_lt_Some in Elj as Hlj.
    destruct (decide (i' = j)) as [->|Hj']; [rewrite list_lookup_insert by (by rewrite insert_length); naive_solver|].
    rewrite list_lookup_insert_ne by done. destruct (decide (i' = i)) as [->|Hi']; [rewrite list_lookup_insert by done; naive_solver|].
    rewrite list_lookup_insert_ne by done. naive_solver. }
  assert (forall x y (cx : C) (cy : C), rPts g !! x = Some cx -> rPts g !! y = Some cy -> x = y <-> cx = cy) as HU.
  { intros x y cx cy Hx Hy. split; [congruence|]. intros ->. by eapply NoDup_lookup. }
  constructor; cbn; try done.
  - by rewrite !insert_length.
  - intros i' l' [(->&->)|[(->&->)|(_&_&Hl)]]%HL; [apply set_edge_keys; eauto..|eauto].
  - intros i' a' l' Ha' Hl j' k'. apply HL in Hl as [(->&->)|[(->&->)|(Hi'&Hj'&Hl)]].
    + rewrite Hj in Ha'. injection Ha' as <-. rewrite set_edge_in by eauto. rewrite (R8 j b lj Hj Elj). split.
      * intros [(->&->)|(Hx&b'&Hb'&Hk')].
        -- exists a. split; [done|]. rewrite decide_True by auto. done.
        -- exists b'. split; [done|]. rewrite decide_False; [done|]. assert (b' <> a) by (intros ->; apply Hx; by apply (HU _ _ _ _ Hb' Hi)). naive_solver.
      * intros (b'&Hb'&Hd). destruct (decide (b' = a)) as [->|Hba].
        -- left. rewrite decide_True in Hd by auto. split; [by apply (HU _ _ _ _ Hb' Hi)|congruence].
        -- right. rewrite decide_False in Hd by naive_solver. split; [intros ->; congruence|eauto].
    + rewrite Hi in Ha'. injection Ha' as <-. rewrite set_edge_in by eauto. rewrite (R8 i a li Hi Eli). split.
      * intros [(->&->)|(Hx&b'&Hb'&Hk')].
        -- exists b. split; [done|]. rewrite decide_True by auto. done.
        -- exists b'. split; [done|]. rewrite decide_False; [done|]. assert (b' <> b) by (intros ->; apply Hx; by apply (HU _ _ _ _ Hb' Hj)). naive_solver.
      * intros (b'&Hb'&Hd). destruct (decide (b' = b)) as [->|Hba].
        -- left. rewrite decide_True in Hd by auto. split; [by apply (HU _ _ _ _ Hb' Hj)|congruence].
        -- right. rewrite decide_False in Hd by naive_solver. split; [intros ->; congruence|eauto].
    + assert (a' <> a) by (intros ->; apply Hi'; by apply (HU _ _ _ _ Ha' Hi)). assert (a' <> b) by (intros ->; apply Hj'; by apply (HU _ _ _ _ Ha' Hj)).
      rewrite (R8 i' a' l' Ha' Hl). split; intros (b'&Hb'&Hk'); exists b'; (split; [done|]); [rewrite decide_False by naive_solver; done|rewrite decide_False in Hk' by naive_solver; done].
  - intros x y. rewrite (R9 x y). destruct (decide ((x, y) = (a, b) \/ (x, y) = (b, a))) as [Hx|Hx]; [rewrite decide_True by naive_solver; done|rewrite decide_False by naive_solver; done].
  - intros x. rewrite decide_False by naive_solver. done.
  - intros x y k'. destruct (decide _) as [[[= -> ->]|[= -> ->]]|_]; [intros _..|apply R11]; split; apply elem_of_list_lookup; eauto.
Qed.

(** unlink takes the point k out of all lists of its neighbours. *)
Lemma unlink_spec k todo : forall adj, (forall a, a ∈ todo -> a.1 <> k /\ (a.1 < length adj)%nat) -> NoDup (todo.*1) ->
  exists adj', unlink k todo adj = Ok adj' /\ length adj' = length adj /\
    forall i l, adj !! i = Some l -> adj' !! i = Some (if decide (i ∈ todo.*1) then erase_to k l else l).
Proof.
  induction todo as [|[j d] todo IH]; intros adj Ha Hn; cbn.
  - exists adj. split_and!; done.
  - apply NoDup_cons in Hn as (Hj&Hn). destruct (Ha (j, d)) as (Hk&Hlt); [by left|]. cbn in Hk, Hlt.
    destruct (Nat.eqb_spec j k) as [?|_]; [done|]. destruct (adj !! j) as [l|] eqn:El; [|apply lookup_ge_None in El; lia].
    destruct (IH (<[j:=erase_to k l]> adj)) as (adj'&Eu&Hlen&Hl).
    { intros a Hin. rewrite insert_length. apply Ha. by right. } { done. }
    exists adj'. split_and!; [done|by rewrite Hlen, insert_length|]. intros i l' Hi. destruct (decide (i = j)) as [->|Hij].
    + rewrite decide_True by (by left). specialize (Hl j (erase_to k l)). rewrite list_lookup_insert in Hl by (by eapply lookup_lt_Some).
      rewrite decide_False in Hl by done. rewrite El in Hi. injection Hi as <-. by apply Hl.
    + specialize (Hl i l'). rewrite list_lookup_insert_ne in Hl by done. rewrite (Hl Hi).
      destruct (decide (i ∈ todo.*1)) as [Hin|Hin]; [rewrite decide_True by (by right); done|].
      rewrite decide_False; [done|]. rewrite elem_of_cons. tauto.
Qed.

Lemma rep_remove1 e g : rep e g -> rPts g <> [] ->
  let l := take (length (rPts g) - 1) (rPts g) in
  exists e', removeLast e = Ok e' /\ rep e' (mkRoad l (fun x y => if decide (x ∈ l /\ y ∈ l) then rCost g x y else None) (rStart g) (rGoal g)).
Proof.
  intros R Hne l. pose proof R as [R1 R2 R3 R4 R4' R5 R6 R7 R8 R9 R10 R11]. unfold removeLast. rewrite R1.
  set (k := (length (rPts g) - 1)%nat) in *. assert (k < length (rPts g))%nat as Hk by (destruct (rPts g); cbn in *; [done|lia]).
  rewrite (last_lookup (jAdj e)), last_lookup, R4. replace (pred (length (rPts g))) with k by lia.
  destruct (lookup_lt_is_Some_2 (rPts g) k Hk) as (c&Hc). destruct (rep_lookup _ _ _ _ R Hc) as (a&Ea). rewrite Ea, Hc.
  assert (forall i x, l !! i = Some x <-> (i < k)%nat /\ rPts g !! i = Some x) as Hl.
  { intros i x. unfold l. destruct (decide (i < k)%nat) as [Hi|Hi]; [rewrite lookup_take by done; tauto|rewrite lookup_take_ge by lia]. split; [done|lia]. }
  assert (forall x, x ∈ l <-> x ∈ rPts g /\ x <> c) as Hlc.
  { intros x. rewrite !elem_of_list_lookup. split.
    - intros (i&(Hi&Hx)%Hl). split; [eauto|]. intros ->. assert (i = k) by (by eapply NoDup_lookup). lia.
    - intros ((i&Hi)&Hxc). exists i. apply Hl. split; [|done]. apply lookup_lt_Some in Hi as Hlt. assert (i <> k) by congruence. lia. }
  destruct (unlink_spec k a (jAdj e)) as (adj'&Eu&Hlen&HL).
  { intros [j d] Hin. apply (R8 k c a Hc Ea) in Hin as (b&Hb&Hd). cbn. rewrite R4. split; [|by eapply lookup_lt_Some].
    intros ->. rewrite Hc in Hb. injection Hb as <-. by rewrite R10 in Hd. }
  { eauto. }
  rewrite Eu. cbn [obind]. eexists. split; [reflexivity|]. rewrite Hlen, R4. fold k.
  assert (forall i x, take k adj' !! i = Some x -> exists l0, jAdj e !! i = Some l0 /\ (i < k)%nat /\ x = if decide (i ∈ a.*1) then erase_to k l0 else l0) as HT.
  { intros i x Hx. assert (i < k)%nat as Hi by (apply lookup_lt_Some in Hx; rewrite take_length in Hx; lia). rewrite lookup_take in Hx by done.
    destruct (jAdj e !! i) as [l0|] eqn:El0; [|apply lookup_ge_None in El0; lia]. exists l0. rewrite (HL _ _ El0) in Hx. by injection Hx as <-. }
  assert (length l = k) as Hll by (unfold l; rewrite take_length; lia).
  constructor; cbn; try done.
  - apply NoDup_alt. intros i j x (_&Hi)%Hl (_&Hj)%Hl. by eapply NoDup_lookup.
  - intros x i. destruct (decide (x = c)) as [->|Hxc].
    + rewrite lookup_delete. split; [done|]. intros Hx. apply elem_of_list_lookup_2, Hlc in Hx. tauto.
    + rewrite lookup_delete_ne by done. rewrite R3, Hl. split; [|tauto]. intros Hx. split; [|done]. apply lookup_lt_Some in Hx as Hlt. assert (i <> k) by congruence. lia.
  - rewrite take_length, Hlen, R4, Hll. lia.
  - rewrite Hll. lia.
  - intros i x (l0&El0&_&->)%HT. destruct (decide _); [apply erase_keys|]; eauto.
  - intros i x lx Hx (l0&El0&Hi&->)%HT j d. apply Hl in Hx as (_&Hx).
    assert (x ∈ l) as Hxl by (apply elem_of_list_lookup; exists i; by apply Hl).
    assert ((j, d) ∈ (if decide (i ∈ a.*1) then erase_to k l0 else l0) <-> j <> k /\ (j, d) ∈ l0) as ->.
    { destruct (decide (i ∈ a.*1)) as [Hin|Hin]; [by apply erase_in; eauto|]. split; [|tauto]. intros Hj. split; [|done]. intros ->.
      apply (R8 i x l0 Hx El0) in Hj as (b&Hb&Hd). rewrite Hc in Hb. injection Hb as <-. apply Hin. apply elem_of_list_fmap. exists (i, d). split; [done|].
      apply (R8 k c a Hc Ea). exists x. split; [done|]. by rewrite R9. }
    rewrite (R8 i x l0 Hx El0). split.
    + intros (Hjk&b&Hb&Hd). exists b. assert (l !! j = Some b) as Hb' by (apply Hl; split; [|done]; apply lookup_lt_Some in Hb; lia).
      split; [done|]. rewrite decide_True; [done|]. split; [done|]. by eapply elem_of_list_lookup_2.
    + intros (b&Hb&Hd). apply Hl in Hb as (Hj&Hb). split; [lia|]. exists b. split; [done|]. by destruct (decide _).
  - intros x y. rewrite (R9 x y). destruct (decide (x ∈ l /\ y ∈ l)); [rewrite decide_True by tauto; done|rewrite decide_False by tauto; done].
  - intros x. rewrite R10. by destruct (decide _).
  - intros x y d. destruct (decide (x ∈ l /\ y ∈ l)); [tauto|done].
Qed.

Lemma rep_ext e g f : (forall x y, f x y = rCost g x y) -> rep e g -> rep e (mkRoad (rPts g) f (rStart g) (rGoal g)).
Proof.
  intros Hf [R1 R2 R3 R4 R4' R5 R6 R7 R8 R9 R10 R11]; constructor; cbn; try done.
  - intros i a l Hi Hl j k. rewrite (R8 _ _ _ Hi Hl). by setoid_rewrite Hf.
  - intros a b. by rewrite !Hf.
  - intros a. by rewrite Hf.
  - intros a b k. rewrite Hf. apply R11.
Qed.

Lemma rep_remove n : forall e g, rep e g -> (n <= length (rPts g))%nat ->
  let l := take (length (rPts g) - n) (rPts g) in
  exists e', remove_loop n e = Ok e' /\ rep e' (mkRoad l (fun x y => if decide (x ∈ l /\ y ∈ l) then rCost g x y else None) (rStart g) (rGoal g)).
Proof.
  induction n as [|n IH]; intros e g R Hn l; cbn.
  - exists e. split; [done|]. assert (l = rPts g) as -> by (unfold l; rewrite firstn_all2 by lia; done). apply rep_ext; [|done].
    intros x y. destruct (decide _) as [|Hd]; [done|]. destruct (rCost g x y) eqn:Ek; [|done]. apply (rp_in _ _ R) in Ek. tauto.
  - destruct (rep_remove1 e g R) as (e1&E1&R1); [intros Hx; rewrite Hx in Hn; cbn in Hn; lia|]. rewrite E1. cbn [obind].
    destruct (IH e1 _ R1) as (e2&E2&R2). { cbn. rewrite take_length. lia. }
    exists e2. split; [done|]. cbn in R2.
    rewrite take_take, take_length in R2. replace ((length (rPts g) - 1) `min` length (rPts g) - n)%nat with (length (rPts g) - S n)%nat in R2 by lia.
    replace ((length (rPts g) - S n) `min` (length (rPts g) - 1))%nat with (length (rPts g) - S n)%nat in R2 by lia. fold l in R2.
    pose proof (rep_ext e2 (mkRoad l (fun x y => if decide (x ∈ l /\ y ∈ l) then if decide (x ∈ take (length (rPts g) - 1) (rPts g) /\ y ∈ take (length (rPts g) - 1) (rPts g)) then rCost g x y else None else None) (rStart g) (rGoal g))
      (fun x y => if decide (x ∈ l /\ y ∈ l) then rCost g x y else None)) as HX. cbn in HX. apply HX; [|done].
    intros x y. destruct (decide (x ∈ l /\ y ∈ l)) as [(Hx&Hy)|]; [|done]. rewrite decide_True; [done|].
    assert (forall x, x ∈ l -> x ∈ take (length (rPts g) - 1) (rPts g)) as Hsub; [|split; by apply Hsub].
    intros z (i&Hz)%elem_of_list_lookup. apply elem_of_list_lookup. exists i. unfold l in Hz. assert (i < length (rPts g) - S n)%nat as Hi by (apply lookup_lt_Some in Hz; rewrite take_length in Hz; lia).
    rewrite lookup_take in Hz by done. rewrite lookup_take by lia. done.
Qed.

Lemma perform_spec e g c g' : rep e g -> does g c g' -> exists e', perform e c = Ok e' /\ rep e' g'.
Proof.
  intros R Hd. destruct Hd as [g c Hc|g a b k Ha Hb Hne|g n l Hn ->|g c i Hi|g c i Hi]; cbn [perform].
  - eexists. split; [done|]. by apply rep_add.
  - by apply rep_cost.
  - unfold removeLastPoints. rewrite (rp_pts _ _ R). destruct (Nat.leb_spec n (length (rPts g))); [|lia]. by apply rep_remove.
  - unfold setStartState. rewrite (proj2 (rp_ids _ _ R c i) Hi). eexists. split; [done|]. by destruct R; constructor.
  - unfold setGoalState. rewrite (proj2 (rp_ids _ _ R c i) Hi). eexists. split; [done|]. by destruct R; constructor.
Qed.
Lemma performs_app cs e c : performs e (cs ++ [c]) = do e <- performs e cs; perform e c.
Proof.
  revert e. induction cs as [|x cs IH]; intros e; cbn; [by destruct (perform e c)|]. destruct (perform e x); cbn; [apply IH|done..].
Qed.
Lemma history_spec cs g : history cs g -> exists e, performs new_adj cs = Ok e /\ rep e g.
Proof.
  induction 1 as [|cs g c g' _ (e&E&R) Hd].
  - exists new_adj. split; [done|apply rep_new].
  - destruct (perform_spec e g c g' R Hd) as (e'&E'&R'). exists e'. split; [|done]. rewrite performs_app, E. exact E'.
Qed.
End adj.
