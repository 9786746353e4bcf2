(** Model of the value-iteration planner, /repo/src/planners/viplanner.cpp and
    /repo/src/include/sbpl/planners/viplanner.h.
    Simplified: [float]/[double] arithmetic is exact rational; states (pointers) are identified with their
    ids, so GetState/CreateState (lines 57-96) is a look-up whose default is what Initialize_vidata (48-55)
    writes; printing and the statistics file are left out; perform_iteration_backward (259-314) is never
    called. The clock is a list of answers to "is there time left?" (exhausted list: no). *)
From Verif Require Import Base MdpModel EvalModel.
Local Open Scope Z_scope.

(** The environment as the planner uses it: SetAllActionsandAllOutcomes and GetGoalHeuristic. *)
Record vienv := mkVE { ve_acts : Z -> list eact; ve_h : Z -> Z }.

(** viplanner.h:55-79 VIState: v, iteration, bestnextaction; and the Actions vector of the CMDPSTATE. *)
Record vidata := mkVD { vd_v : Q; vd_iter : Z; vd_best : option eact; vd_acts : list eact }.

(** viplanner.h:46-53 VIPLANNER_T with the file-level statics g_backups and g_belldelta
    (viplanner.cpp:39-41), which are shared by all planners of the process. *)
Record vist := mkVI { vi_mdp : gmap Z vidata; vi_iter : Z; vi_delta : Q; vi_backups : Z }.

(** viplanner.cpp:48-55 Initialize_vidata on a fresh CMDPSTATE. *)
Definition vi_fresh (env : vienv) (id : Z) : vidata := mkVD (inject_Z (ve_h env id)) 0 None [].
(** viplanner.cpp:86-96 GetState. *)
Definition vi_get (env : vienv) (st : vist) (id : Z) : vidata := default (vi_fresh env id) (vi_mdp st !! id).
Definition vi_put (st : vist) (id : Z) (d : vidata) : vist :=
  mkVI (<[id := d]> (vi_mdp st)) (vi_iter st) (vi_delta st) (vi_backups st).

(** viplanner.cpp:234-239 actionQ of one action. *)
Fixpoint vi_actionQ (env : vienv) (st : vist) (outs : list (Z * Z * Q)) (q : Q) : Q :=
  match outs with
  | [] => q
  | o :: outs => vi_actionQ env st outs (q + o.2 * (inject_Z (o.1.2) + vd_v (vi_get env st (o.1.1))))%Q
  end.
(** viplanner.cpp:231-245 the loop over the actions. *)
Fixpoint vi_min (env : vienv) (st : vist) (acts : list eact) (minq : Q) (mina : option eact) : Q * option eact :=
  match acts with
  | [] => (minq, mina)
  | a :: acts =>
    let q := vi_actionQ env st (ea_outs a) 0%Q in
    match mina with
    | None => vi_min env st acts q (Some a)
    | Some _ => if qltb q minq then vi_min env st acts q (Some a) else vi_min env st acts minq mina
    end
  end.
Definition qabs (x : Q) : Q := if qltb x 0 then (- x)%Q else x.
(** viplanner.cpp:218-256 backup. *)
Definition vi_backup (env : vienv) (goal : Z) (st : vist) (id : Z) : vist :=
  let d := vi_get env st id in
  if id =? goal then
    mkVI (<[id := mkVD 0%Q (vd_iter d) None (vd_acts d)]> (vi_mdp st)) (vi_iter st) (vi_delta st) (vi_backups st + 1)
  else
    let r := vi_min env st (vd_acts d) (inject_Z INFINITECOST) None in
    let delta := match vd_best d with
                 | None => inject_Z INFINITECOST
                 | Some _ => let e := qabs (vd_v d - r.1)%Q in
                             if qltb (vi_delta st) e then e else vi_delta st
                 end in
    mkVI (<[id := mkVD (r.1) (vd_iter d) (r.2) (vd_acts d)]> (vi_mdp st)) (vi_iter st) delta (vi_backups st + 1).

(** viplanner.cpp:342-352 push the not yet visited successors of the best action; the work list is a stack. *)
Fixpoint vi_push (env : vienv) (st : vist) (outs : list (Z * Z * Q)) (wl : list Z) : vist * list Z :=
  match outs with
  | [] => (st, wl)
  | o :: outs =>
    let d := vi_get env st (o.1.1) in
    if vd_iter d =? vi_iter st then vi_push env st outs wl
    else vi_push env (vi_put st (o.1.1) (mkVD (vd_v d) (vi_iter st) (vd_best d) (vd_acts d))) outs (o.1.1 :: wl)
  end.
(** viplanner.cpp:339-353: the loop over the actions always looks at bestnextaction. *)
Fixpoint vi_push_acts (env : vienv) (id : Z) (acts : list eact) (st : vist) (wl : list Z) : vist * list Z :=
  match acts with
  | [] => (st, wl)
  | _ :: acts =>
    let r := match vd_best (vi_get env st id) with
             | None => (st, wl)
             | Some a => vi_push env st (ea_outs a) wl
             end in
    vi_push_acts env id acts (r.1) (r.2)
  end.
(** viplanner.cpp:333-334 "add all actions to the state". *)
Definition vi_set_actions (env : vienv) (st : vist) (id : Z) : vist :=
  let d := vi_get env st id in
  match vd_acts d with
  | [] => vi_put st id (mkVD (vd_v d) (vd_iter d) (vd_best d) (ve_acts env id))
  | _ => st
  end.
(** viplanner.cpp:326-354 the work list loop. *)
Fixpoint vi_forward (fuel : nat) (env : vienv) (goal : Z) (st : vist) (wl : list Z) : outcome unit vist :=
  match fuel with
  | O => OOF
  | S fuel =>
    match wl with
    | [] => Ok st
    | id :: wl =>
      let st := vi_backup env goal (vi_set_actions env st id) id in
      let r := vi_push_acts env id (vd_acts (vi_get env st id)) st wl in
      vi_forward fuel env goal (r.1) (r.2)
    end
  end.

(** viplanner.h:43 MDP_ERRDELTA. *)
Definition MDP_ERRDELTA : Q := 1 # 100.
(** viplanner.cpp:384-395 the loop of replan; the flag of the result says "the clock ended the loop". *)
Fixpoint vi_iterate (fuel : nat) (env : vienv) (start goal : Z) (clock : list bool) (st : vist)
    : outcome unit (vist * bool) :=
  match clock with
  | true :: clock =>
    if qltb MDP_ERRDELTA (vi_delta st) then
      do st <- vi_forward fuel env goal (mkVI (vi_mdp st) (vi_iter st + 1) 0%Q (vi_backups st)) [start];
      vi_iterate fuel env start goal clock st
    else Ok (st, false)
  | _ => Ok (st, true)
  end.

(** viplanner.cpp:130-186 PrintPolicy: the reachable part of the greedy policy, in the order in which the
    work list (a stack) hands it out. The action keeps its outcomes; unexplored states get no action. *)
Fixpoint vi_policy (fuel : nat) (env : vienv) (goal : Z) (st : vist) (wl : list Z) (pol : list est)
    : outcome unit (vist * list est) :=
  match fuel with
  | O => OOF
  | S fuel =>
    match wl with
    | [] => Ok (st, pol)
    | id :: wl =>
      if id =? goal then vi_policy fuel env goal st wl (pol ++ [mkES id []])
      else match vd_best (vi_get env st id) with
           | None => vi_policy fuel env goal st wl (pol ++ [mkES id []])
           | Some a => let r := vi_push env st (ea_outs a) wl in
                       vi_policy fuel env goal (r.1) (r.2) (pol ++ [mkES id [a]])
           end
    end
  end.
Definition vi_print_policy (fuel : nat) (env : vienv) (start goal : Z) (st : vist) : outcome unit (vist * list est) :=
  let st := mkVI (vi_mdp st) (vi_iter st + 1) (vi_delta st) (vi_backups st) in
  let d := vi_get env st start in
  vi_policy fuel env goal (vi_put st start (mkVD (vd_v d) (vi_iter st) (vd_best d) (vd_acts d))) [start] [].

(** What a call of replan shows: the return value (always 1; the solution vector is not touched), whether
    the clock ended it, v(start) as printed, the policy handed to EvaluatePolicy and its result. *)
Record vires := mkVR { vr_ret : Z; vr_timeout : bool; vr_vstart : Q; vr_policy : list est; vr_eval : evres }.
(** viplanner.cpp:368-413 replan. [fuel] bounds each loop of this model, [efuel] the loop of EvaluatePolicy. *)
Definition vi_replan (fuel efuel : nat) (env : vienv) (start goal : Z) (clock : list bool) (st : vist)
    : outcome unit (vist * vires) :=
  do r <- vi_iterate fuel env start goal clock (mkVI (vi_mdp st) 0 (vi_delta st) (vi_backups st));
  do p <- vi_print_policy fuel env start goal (r.1);
  do e <- EvaluatePolicy efuel (p.2) start goal false;
  Ok (p.1, mkVR 1 (r.2) (vd_v (vi_get env (p.1) start)) (p.2) e).

(** viplanner.cpp:39-41 the statics at program start, and a planner that has seen no state. *)
Definition vi_init : vist := mkVI ∅ 0 (inject_Z INFINITECOST) 0.
