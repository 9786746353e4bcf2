(** C07. *)
From Verif Require Import Base FifoModel FifoSpec FifoProofs.

(** A queue built with size n >= 1 behaves, for every history, as a FIFO of capacity n-1. *)
Theorem C07_fifo_refines_bounded_queue : forall (T : Type) n (os : list (fop T)), 0 < n ->
  exists rs f l, frun (new_fifo n) os = Ok (rs, f) /\ fspec_run (n - 1) [] os rs l /\ length l <= n - 1.
Proof. exact @fifo_history. Qed.
Print Assumptions C07_fifo_refines_bounded_queue.

(** Finding: a queue of size 0 (legal constructor argument) writes outside its buffer. *)
Theorem C07_zero_size_refuted : exists os : list (fop nat), frun (new_fifo 0) os = UB.
Proof. exists [FInsert 1]. reflexivity. Qed.
Print Assumptions C07_zero_size_refuted.

Example fifo_demo : exists f, frun (new_fifo 3)
   [FInsert 1; FInsert 2; FInsert 3; FRemove; FInsert 4; FRemove; FRemove; FRemove; FInsert 5; FRemove; FEmpty] =
  Ok ([FBool true; FBool true; FBool false; FVal (Some 1); FBool true; FVal (Some 2); FVal (Some 4); FVal None;
       FBool true; FVal (Some 5); FBool true], f).
Proof. eexists. vm_compute. reflexivity. Qed.
