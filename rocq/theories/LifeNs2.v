(** The probes and the end of NavierStokesSolver, on every variable. *)
From Verif Require Import Prelude LifeModel LifeSpec LifeHeap LifeProof.
Local Open Scope Z_scope.

Section Ns.
Variables (conv diff bn : Z) (keep kv kp kf root restart : bool) (ps : list pshape) (nb : Z).
Notation shp dim := (the_shape dim conv diff bn keep kv kp kf root restart ps nb).
Variable g : slot -> status.

Ltac go := match goal with
  | Hd : 2 = 2 \/ 2 = 3 |- _ => slotwise 2 conv diff kv kp kf ps nb
  | Hd : 3 = 2 \/ 3 = 3 |- _ => slotwise 3 conv diff kv kp kf ps nb
  end.
Ltac both Hd Hf := intros Hd Hf; destruct Hd as [->| ->]; [assert (Hd : 2 = 2 \/ 2 = 3) by auto|assert (Hd : 3 = 2 \/ 3 = 3) by auto]; unfold tr.

Definition monitor_ops sh e := loop (nprobes sh) (fun i => when (e_due e i) (probe_monitor sh i)).
Lemma monitor_tr dim d e : dim = 2 \/ dim = 3 -> fields_ok dim ps ->
  tr (stage 4 g (shp dim) d) (monitor_ops (shp dim) e) (stage 4 g (shp dim) (grown (shp dim) e d)).
Proof.
  both Hd Hf; unfold grown, sums; intros x; destruct x; tables; prepare conv diff kv kp kf ps nb; cbn [ksp_of on];
  try match goal with |- acts (SpDvec ?i) _ _ = _ => destruct (d i), (e_due e i) eqn:?; cbn [andb orb]; try destruct sum end; try piece.
Qed.

(** Giving everything back, once and again. *)
Definition gone (sh : shape) (d : Z -> bool) (x : slot) : status := if ib_slot x then g x else after NavierStokes sh d x.
Lemma destroy_tr dim d : dim = 2 \/ dim = 3 -> fields_ok dim ps ->
  tr (stage 4 g (shp dim) d) (ns_destroy (shp dim)) (gone (shp dim) d).
Proof.
  both Hd Hf; unfold gone; intros x; destruct x; tables; prepare conv diff kv kp kf ps nb; cbn [ksp_of on];
  try match goal with |- acts (SpDvec ?i) _ _ = _ => destruct (d i) end; piece.
Qed.
Lemma destroy_again_tr dim d : dim = 2 \/ dim = 3 -> fields_ok dim ps ->
  tr (gone (shp dim) d) (ns_destroy (shp dim)) (gone (shp dim) d).
Proof.
  both Hd Hf; unfold gone; intros x; destruct x; tables; prepare conv diff kv kp kf ps nb; cbn [ksp_of on];
  try match goal with |- acts (SpDvec ?i) _ _ = _ => destruct (d i) end; piece.
Qed.
End Ns.
