(** The functions of the immersed-boundary solvers, on every variable. *)
From Verif Require Import Prelude LifeModel LifeSpec LifeHeap LifeProof.
Local Open Scope Z_scope.

Section Ib.
Variables (conv diff bn : Z) (keep kv kp kf root restart : bool) (ps : list pshape) (nb : Z).
Notation shp dim := (the_shape dim conv diff bn keep kv kp kf root restart ps nb).

Ltac go := match goal with
  | Hd : 2 = 2 \/ 2 = 3 |- _ => slotwise 2 conv diff kv kp kf ps nb
  | Hd : 3 = 2 \/ 3 = 3 |- _ => slotwise 3 conv diff kv kp kf ps nb
  end.
Ltac both Hd Hf := intros Hd Hf; destruct Hd as [->| ->]; [assert (Hd : 2 = 2 \/ 2 = 3) by auto|assert (Hd : 3 = 2 \/ 3 = 3) by auto]; unfold tr.
Ltac one dim := unfold tr; slotwise dim conv diff kv kp kf ps nb.
Definition nothing : Z -> bool := fun _ => false.

(** ** The coupled solver *)
Definition gco (n : Z) (x : slot) : status :=
  match x with
  | SbPack => if 1 <=? n then Li KPack [] else Nu
  | SbDa i => on ((1 <=? n) && within i nb) KDm
  | SisDE i => on ((2 <=? n) && within i 2) KIs
  | SP => on (3 <=? n) KVec
  | SforcesV => on (4 <=? n) KView
  | _ => Un
  end.
Ltac gcos := unfold gco; cbn [Z.leb Z.compare Pos.compare Pos.compare_cont andb].

Section Any.
Variables (dim : Z) (d : Z -> bool).
Lemma co_bodies_tr : tr (stage 0 (gco 0) (shp dim) nothing) (bodies_init (shp dim)) (stage 0 (gco 1) (shp dim) nothing).
Proof. gcos. one dim. Qed.
Lemma co_forces_tr : tr (stage 4 (gco 3) (shp dim) nothing) [ONew SforcesV KView []] (stage 4 (gco 4) (shp dim) nothing).
Proof. gcos. one dim. Qed.
Notation T := (table Coupled (shp dim) d).
Lemma co_rhs_poisson_tr : tr T co_rhs_poisson T.
Proof. one dim. Qed.
Lemma co_force_file_tr : tr T (force_part (io_vecs [V Lsub KVec])) T.
Proof. one dim. Qed.
Lemma co_force_avg_tr : tr T (force_part (avg_forces (shp dim) Lsub) ++ [OUse (V SforcesV KView)]) T.
Proof. one dim. Qed.
End Any.

Lemma co_operators_tr dim : dim = 2 \/ dim = 3 -> fields_ok dim ps ->
  tr (stage 1 (gco 1) (shp dim) nothing) (co_operators (shp dim)) (stage 2 (gco 2) (shp dim) nothing).
Proof. both Hd Hf; gcos; go. Qed.
Lemma co_vectors_tr dim : dim = 2 \/ dim = 3 -> fields_ok dim ps ->
  tr (stage 2 (gco 2) (shp dim) nothing) (co_vectors (shp dim)) (stage 3 (gco 3) (shp dim) nothing).
Proof. both Hd Hf; gcos; go. Qed.
Lemma co_write_tr dim d : dim = 2 \/ dim = 3 -> fields_ok dim ps ->
  tr (table Coupled (shp dim) d) (co_write_solution (shp dim)) (table Coupled (shp dim) d).
Proof. both Hd Hf; go. Qed.
Lemma co_read_tr dim d : dim = 2 \/ dim = 3 -> fields_ok dim ps ->
  tr (table Coupled (shp dim) d) (co_read_restart (shp dim)) (table Coupled (shp dim) d).
Proof. both Hd Hf; go. Qed.

(** What is left of the members of the immersed-boundary solvers. *)
Definition left_over (a : app) (u : status) (sh : shape) (x : slot) : status :=
  match x with SUB => u | _ => after a sh nothing x end.
Lemma co_destroy_tr dim d :
  tr (table Coupled (shp dim) d) (bodies_reset (shp dim) ++ [ODrop (SisDE 0); ODrop (SisDE 1); OUse (V SP KVec); ODrop SP; ODrop SforcesV])
     (stage 4 (left_over Coupled Un (shp dim)) (shp dim) d).
Proof. unfold left_over. one dim. Qed.

(** ** The decoupled solvers; [u]: the velocity of the bodies *)
Definition gde (u : status) (sh : shape) (x : slot) : status := match x with SUB => u | _ => table Decoupled sh nothing x end.
Definition gde0 (x : slot) : status := match x with SbPack | SfKsp => Nu | _ => Un end.
Definition de_tail sh := bodies_init sh ++ solver_init (s_kspf sh) SfKsp ++ de_operators sh ++ de_vectors ++
  set_matrix (s_kspf sh) SfKsp SEBNH ++ [ONew SforcesV KView []].

Section Decoupled.
Variables (dim : Z) (d : Z -> bool) (u : status).
Lemma de_tail_tr : tr (stage 4 gde0 (shp dim) nothing) (de_tail (shp dim)) (stage 4 (gde Un (shp dim)) (shp dim) nothing).
Proof. unfold gde, gde0. one dim. Qed.
Lemma rk_velocity_tr : tr (stage 4 (gde Un (shp dim)) (shp dim) d) [ONew SUB KVec [V SbPack KPack]] (stage 4 (gde (Li KVec []) (shp dim)) (shp dim) d).
Proof. unfold gde. one dim. Qed.
Notation T := (stage 4 (gde u (shp dim)) (shp dim) d).
Lemma de_force_file_tr : tr T force_file T.
Proof. unfold gde. one dim. Qed.
Lemma de_push_tr : tr T [OUse (V SH KMat); OUse (V Sf KVec); OUse (V Srhs1 KVec)] T.
Proof. unfold gde. one dim. Qed.
Lemma de_rhs_tr : tr T de_rhs_forces T.
Proof. unfold gde. one dim. Qed.
Lemma de_solve_tr : tr T (solve (s_kspf (shp dim)) SfKsp Sdf Srhsf) T.
Proof. unfold gde. one dim. Qed.
Lemma de_no_slip_tr : tr T [OUse (V SBNH KMat); OUse (V Sdf KVec); OUse (V SsolU KVec)] T.
Proof. unfold gde. one dim. Qed.
Lemma de_update_tr : tr T [OUse (V Sf KVec); OUse (V Sdf KVec)] T.
Proof. unfold gde. one dim. Qed.
Lemma de_info_tr : tr T (when (s_kspf (shp dim)) [OUse (V SfKsp KKsp)]) T.
Proof. unfold gde. one dim. Qed.
Lemma de_avg_tr : tr T (avg_forces (shp dim) Sf ++ [OUse (V SforcesV KView)]) T.
Proof. unfold gde. one dim. Qed.
Lemma write_bodies_tr : tr T (write_bodies (shp dim)) T.
Proof. unfold gde. one dim. Qed.
Definition de_release sh := [ODrop SfKsp] ++ bodies_reset sh ++
  [ODrop Sdf; ODrop Sf; ODrop Srhsf; ODrop SH; ODrop SE; ODrop SEBNH; ODrop SBNH; ODrop SforcesV].
Lemma de_release_tr : tr T (de_release (shp dim)) (stage 4 (left_over Decoupled u (shp dim)) (shp dim) d).
Proof. unfold gde, left_over. one dim. Qed.
End Decoupled.

Section Moving.
Variables (dim : Z) (d : Z -> bool).
Notation T := (stage 4 (gde (Li KVec []) (shp dim)) (shp dim) d).
Lemma move_tr : tr T (move_bodies (shp dim)) T.
Proof. unfold gde. one dim. Qed.
Lemma rk_rhs_tr : tr T [OUse (V SUB KVec)] T.
Proof. unfold gde. one dim. Qed.
End Moving.
End Ib.
