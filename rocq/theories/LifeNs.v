(** The functions of NavierStokesSolver, on every variable. *)
From Verif Require Import Prelude LifeModel LifeSpec LifeHeap LifeProof.
Local Open Scope Z_scope.

Section Ns.
Variables (conv diff bn : Z) (keep kv kp kf root restart : bool) (ps : list pshape) (nb : Z).
Notation shp dim := (the_shape dim conv diff bn keep kv kp kf root restart ps nb).
Variable g : slot -> status.

Ltac go := match goal with
  | Hd : 2 = 2 \/ 2 = 3 |- _ => slotwise 2 conv diff kv kp kf ps nb
  | Hd : 3 = 2 \/ 3 = 3 |- _ => slotwise 3 conv diff kv kp kf ps nb
  end.
Ltac both Hd Hf := intros Hd Hf; destruct Hd as [->| ->]; [assert (Hd : 2 = 2 \/ 2 = 3) by auto|assert (Hd : 3 = 2 \/ 3 = 3) by auto]; unfold tr.

Definition setup_ops sh := mesh_init sh ++ mesh_write sh ++ bc_init sh ++ solution_init ++ set_ics sh ++ ghost_ics ++
  solver_init (s_kspv sh) SvKsp ++ solver_init (s_kspp sh) SpKsp.
Definition probe_ops sh := 
  set_matrix (s_kspv sh) SvKsp SA ++ set_matrix (s_kspp sh) SpKsp SDBNG ++
  loop (nprobes sh) (probe_init sh) ++ [ONew SsolversV KView []].
Definition none : Z -> bool := fun _ => false.

Lemma setup_tr dim : dim = 2 \/ dim = 3 -> fields_ok dim ps -> tr (stage 0 g (shp dim) none) (setup_ops (shp dim)) (stage 1 g (shp dim) none).
Proof. both Hd Hf; go. Qed.
Lemma operators_tr dim : dim = 2 \/ dim = 3 -> fields_ok dim ps -> tr (stage 1 g (shp dim) none) (ns_operators (shp dim)) (stage 2 g (shp dim) none).
Proof. both Hd Hf; go. Qed.
Lemma vectors_tr dim : dim = 2 \/ dim = 3 -> fields_ok dim ps -> tr (stage 2 g (shp dim) none) (ns_vectors (shp dim) [da 3]) (stage 3 g (shp dim) none).
Proof. both Hd Hf; go. Qed.
Lemma probes_tr dim : dim = 2 \/ dim = 3 -> fields_ok dim ps -> tr (stage 3 g (shp dim) none) (probe_ops (shp dim)) (stage 4 g (shp dim) none).
Proof. both Hd Hf; go. Qed.
Lemma read_tr dim d : dim = 2 \/ dim = 3 -> fields_ok dim ps -> tr (stage 4 g (shp dim) d) (ns_read_restart (shp dim)) (stage 4 g (shp dim) d).
Proof. both Hd Hf; go. Qed.
Lemma write_tr dim d : dim = 2 \/ dim = 3 -> fields_ok dim ps -> tr (stage 4 g (shp dim) d) (ns_write_solution (shp dim)) (stage 4 g (shp dim) d).
Proof. both Hd Hf; go. Qed.
Lemma rhs_tr dim d : dim = 2 \/ dim = 3 -> fields_ok dim ps -> tr (stage 4 g (shp dim) d) (ns_rhs_velocity (shp dim)) (stage 4 g (shp dim) d).
Proof. both Hd Hf; go. Qed.
Definition restart_tail sh := [ONew LvRest KView []] ++
  loop (s_conv sh) (fun i => [OUse (V (Sconv i) KVec); OUse (V LvRest KView)]) ++
  loop (s_diff sh) (fun i => [OUse (V (Sdiff i) KVec); OUse (V LvRest KView)]) ++
  [ODrop LvRest; OLeave LvRest].
Lemma restart_tr dim d : dim = 2 \/ dim = 3 -> fields_ok dim ps -> tr (stage 4 g (shp dim) d) (restart_tail (shp dim)) (stage 4 g (shp dim) d).
Proof. both Hd Hf; go. Qed.
(** Functions without a loop over the components. *)
Ltac one dim := unfold tr; slotwise dim conv diff kv kp kf ps nb.
Section Any.
Variables (dim : Z) (d : Z -> bool).
Notation T := (stage 4 g (shp dim) d).
Lemma solve_velocity_tr : tr T (ns_solve_velocity (shp dim)) T.
Proof. one dim. Qed.
Lemma rhs_poisson_tr : tr T ns_rhs_poisson T.
Proof. one dim. Qed.
Lemma solve_poisson_tr : tr T (ns_solve_poisson (shp dim)) T.
Proof. one dim. Qed.
Lemma project_tr : tr T ns_project T.
Proof. one dim. Qed.
Lemma ghost_tr : tr T ghost_update T.
Proof. one dim. Qed.
Lemma info_tr : tr T (ns_info (shp dim)) T.
Proof. one dim. Qed.
Lemma log_tr : tr T [ONew LvLog KView []; ODrop LvLog; OLeave LvLog] T.
Proof. one dim. Qed.
End Any.
End Ns.
