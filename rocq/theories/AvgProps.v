(** C94: the averages of a volume probe in double precision. *)
From Coq Require Import ZArith Reals List Lra Lia Bool.
From Flocq Require Import Core BinarySingleNaN Binary Bits.
From Verif Require Import FloatModel FloatSpec FloatProof KernelModel KernelProof AvgModel AvgSpec AvgProof.
Import ListNotations.
Local Open Scope R_scope.

(** C94. One average is written for every full cycle of [n] recorded values. *)
Theorem averages_written : forall n vs, (0 < n)%nat -> length (averages (Z.of_nat n) vs) = (length vs / n)%nat.
Proof. intros. now apply averages_length. Qed.
Print Assumptions averages_written.

(** C94. Average number [k] is a finite number within (n + 2) * 2^-52 * M (and
    the smallest double) of the exact average of the n values of cycle [k],
    where M bounds the values; the values of other cycles have no influence. *)
Theorem averages_close : forall n k vs M a, (0 < n)%nat -> INR n <= 2 ^ 50 -> 0 <= M <= 2 ^ 900 ->
  Forall (fun v => finite v /\ Rabs (val v) <= M) (cycle n k vs) -> nth_error (averages (Z.of_nat n) vs) k = Some a ->
  length (cycle n k vs) = n /\ finite a /\ Rabs (val a - mean (cycle n k vs)) <= INR (n + 2) * eps * M + / 2 ^ 1075.
Proof.
  intros n k vs M a P H50 HM Hv Ha. destruct (averages_nth n P k vs a Ha) as [L ->]. split; [exact L|].
  pose proof (avg_near M (cycle n k vs) HM Hv) as A. rewrite L in A. auto.
Qed.
Print Assumptions averages_close.

(** C94. The average of values that are all the same need not be that value: of
    49 values 1 it is the double below 1. *)
Theorem steady_average_refuted : exists a, averages 49 (repeat (dofZ 1) 49) = [a] /\ val a < 1 /\ val (dofZ 1) = 1.
Proof.
  destruct (int_val 1 ltac:(lia)) as [F1 V1]. eexists. split; [unfold averages; reflexivity|]. split; [|exact V1].
  rewrite <- V1. apply dlt_spec; [vm_compute; reflexivity|exact F1|vm_compute; reflexivity].
Qed.
Print Assumptions steady_average_refuted.

(** The hypotheses hold: the values 1, ..., 5 averaged by two. *)
Example by_two : 
  Forall (fun v => finite v /\ Rabs (val v) <= 4) (cycle 2 1 (map dofZ [1; 2; 3; 4; 5]%Z)) /\
  averages 2 (map dofZ [1; 2; 3; 4; 5]%Z) = map (fun z => ddiv (dofZ z) (dofZ 2)) [3; 7]%Z.
Proof.
  split.
  - destruct (int_val 3 ltac:(lia)) as [F3 V3]. destruct (int_val 4 ltac:(lia)) as [F4 V4].
    change (cycle 2 1 (map dofZ [1; 2; 3; 4; 5]%Z)) with [dofZ 3; dofZ 4]. apply Forall_cons; [split; [exact F3|rewrite V3; apply Rabs_le; lra]|]. apply Forall_cons; [split; [exact F4|rewrite V4; apply Rabs_le; lra]|]. apply Forall_nil.
  - assert (E : map (B2FF 53 1024) (averages 2 (map dofZ [1; 2; 3; 4; 5]%Z)) = map (B2FF 53 1024) (map (fun z => ddiv (dofZ z) (dofZ 2)) [3; 7]%Z)) by (vm_compute; reflexivity).
    revert E. generalize (averages 2 (map dofZ [1; 2; 3; 4; 5]%Z)) (map (fun z => ddiv (dofZ z) (dofZ 2)) [3; 7]%Z). induction l as [|x l IH]; intros [|y m] E; try discriminate; [reflexivity|].
    injection E as E1 E2. f_equal; [now apply B2FF_inj|now apply IH].
Qed.
