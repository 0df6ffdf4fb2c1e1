(** Whole runs of the four solvers, on every variable. *)
From Verif Require Import Prelude LifeModel LifeSpec LifeHeap LifeProof LifeNs LifeNs2 LifeIb.
Local Open Scope Z_scope.

Section Run.
Variables (dim conv diff bn : Z) (keep kv kp kf root restart : bool) (ps : list pshape) (nb : Z).
Notation sh := (the_shape dim conv diff bn keep kv kp kf root restart ps nb).
Hypothesis (Hd : dim = 2 \/ dim = 3) (Hf : fields_ok dim ps).

Lemma init_split o v : ns_init_with sh o v = setup_ops sh ++ o ++ v ++ probe_ops sh.
Proof. unfold ns_init_with, setup_ops, probe_ops. rewrite <- !app_assoc. reflexivity. Qed.

Lemma init_tr g g1 g2 o v :
  tr (stage 1 g sh none) o (stage 2 g1 sh none) -> tr (stage 2 g1 sh none) v (stage 3 g2 sh none) ->
  tr (stage 0 g sh none) (ns_init_with sh o v) (stage 4 g2 sh none).
Proof.
  intros Ho Hv. rewrite init_split. eapply tr_app; [apply setup_tr; assumption|]. eapply tr_app; [exact Ho|].
  eapply tr_app; [exact Hv|]. apply probes_tr; assumption.
Qed.

Lemma write_with_tr g d e info solution restartl :
  tr (stage 4 g sh d) info (stage 4 g sh d) -> tr (stage 4 g sh d) solution (stage 4 g sh d) -> tr (stage 4 g sh d) restartl (stage 4 g sh d) ->
  tr (stage 4 g sh d) (ns_write_with sh e info solution restartl) (stage 4 g sh (grown sh e d)).
Proof.
  intros Hi Hs Hr. unfold ns_write_with. eapply tr_app; [exact Hi|].
  eapply tr_app; [apply tr_when; eapply tr_app; [exact Hs|apply log_tr]|].
  eapply tr_app; [apply tr_when; exact Hr|]. apply monitor_tr; assumption.
Qed.

Lemma restart_with_tr g d missing solution :
  tr (stage 4 g sh d) solution (stage 4 g sh d) ->
  tr (stage 4 g sh d) (ns_write_restart sh missing solution) (stage 4 g sh d).
Proof. intros Hs. eapply tr_app; [apply tr_when; exact Hs|]. apply restart_tr; assumption. Qed.

(** ** Navier-Stokes *)
Definition gns (x : slot) : status := Un.
Lemma ns_table d x : stage 4 gns sh d x = table NavierStokes sh d x.
Proof. destruct x; reflexivity. Qed.

Lemma ns_start_tr : tr (fun _ => Un) (start NavierStokes sh) (table NavierStokes sh none).
Proof.
  apply (tr_ext (fun _ => Un) _ (stage 4 gns sh none) _); [reflexivity|apply ns_table|]. unfold start.
  apply (tr_app _ (stage 0 gns sh none)).
  - intros x. destruct x; reflexivity.
  - eapply tr_app; [eapply init_tr; [apply operators_tr; assumption|apply vectors_tr; assumption]|].
    cbn [io_initial]. unfold ns_io. apply tr_if; [apply read_tr|apply write_tr]; assumption.
Qed.

Lemma ns_step_tr d e : tr (table NavierStokes sh d) (step NavierStokes sh e) (table NavierStokes sh (grown sh e d)).
Proof.
  apply (tr_ext (stage 4 gns sh d) _ (stage 4 gns sh (grown sh e d)) _); [apply ns_table|apply ns_table|]. unfold step.
  apply (tr_app _ (stage 4 gns sh d)).
  - cbn [advance]. unfold ns_advance. repeat (eapply tr_app; [first [apply rhs_tr; assumption|apply solve_velocity_tr|apply rhs_poisson_tr|apply solve_poisson_tr|apply project_tr]|]).
    apply ghost_tr.
  - cbn [write]. unfold ns_write. apply write_with_tr; [apply info_tr|apply write_tr; assumption|].
    apply restart_with_tr. apply write_tr; assumption.
Qed.

Lemma ns_destroy_tr d : tr (table NavierStokes sh d) (destroy NavierStokes sh) (after NavierStokes sh d).
Proof.
  apply (tr_ext (stage 4 gns sh d) _ (gone gns sh d) _); [apply ns_table| |apply destroy_tr; assumption].
  intros x. destruct x; reflexivity.
Qed.
Lemma ns_again_tr d : tr (after NavierStokes sh d) (destroy NavierStokes sh) (after NavierStokes sh d).
Proof.
  apply (tr_ext (gone gns sh d) _ (gone gns sh d) _); [| |apply destroy_again_tr; assumption]; intros x; destruct x; reflexivity.
Qed.

(** ** Coupled *)
Lemma co_table d x : stage 4 (gco nb 4) sh d x = table Coupled sh d x.
Proof. destruct x; reflexivity. Qed.
Lemma co_stage d l Q : tr (table Coupled sh d) l (table Coupled sh d) -> Q = tr (stage 4 (gco nb 4) sh d) l (stage 4 (gco nb 4) sh d) -> Q.
Proof. intros H ->. apply (tr_ext (table Coupled sh d) _ (table Coupled sh d) _); [|intros x; symmetry; apply co_table|exact H]. intros x. symmetry. apply co_table. Qed.

Lemma co_start_tr : tr (fun _ => Un) (start Coupled sh) (table Coupled sh none).
Proof.
  apply (tr_ext (fun _ => Un) _ (stage 4 (gco nb 4) sh none) _); [reflexivity|apply co_table|]. unfold start.
  apply (tr_app _ (stage 0 (gco nb 0) sh none)).
  - intros x. destruct x; reflexivity.
  - apply (tr_app _ (stage 4 (gco nb 4) sh none)).
    + cbn [init]. unfold co_init. eapply tr_app; [apply co_bodies_tr|]. eapply tr_app; [|apply co_forces_tr].
      apply (init_tr _ (gco nb 2)); [apply co_operators_tr; assumption|apply co_vectors_tr; assumption].
    + cbn [io_initial]. unfold co_io. eapply (co_stage none); [|reflexivity]. apply tr_if; [apply co_read_tr|apply co_write_tr]; assumption.
Qed.

Lemma co_step_tr d e : tr (table Coupled sh d) (step Coupled sh e) (table Coupled sh (grown sh e d)).
Proof.
  unfold step. apply (tr_app _ (table Coupled sh d)).
  - apply (tr_ext (stage 4 (gco nb 4) sh d) _ (stage 4 (gco nb 4) sh d) _); [apply co_table|apply co_table|].
    cbn [advance]. unfold co_advance.
    repeat (eapply tr_app; [first [apply rhs_tr; assumption|apply solve_velocity_tr|eapply (co_stage d); [apply co_rhs_poisson_tr|reflexivity]|apply solve_poisson_tr|apply project_tr]|]).
    apply ghost_tr.
  - cbn [write]. unfold co_write. apply (tr_app _ (table Coupled sh (grown sh e d))); [|apply co_force_avg_tr].
    apply (tr_ext (stage 4 (gco nb 4) sh d) _ (stage 4 (gco nb 4) sh (grown sh e d)) _); [apply co_table|apply co_table|].
    assert (W : tr (stage 4 (gco nb 4) sh d) (co_write_solution sh) (stage 4 (gco nb 4) sh d)).
    { eapply (co_stage d); [apply co_write_tr; assumption|reflexivity]. }
    apply write_with_tr; [apply info_tr|exact W|]. unfold co_write_restart. eapply tr_app; [apply restart_with_tr; exact W|].
    eapply (co_stage d); [apply co_force_file_tr|reflexivity].
Qed.

Lemma co_destroy_all_tr d : tr (table Coupled sh d) (destroy Coupled sh) (after Coupled sh d).
Proof.
  cbn [destroy]. unfold co_destroy. rewrite app_assoc. eapply tr_app; [apply co_destroy_tr|].
  apply (tr_ext (stage 4 (left_over Coupled Un sh) sh d) _ (gone (left_over Coupled Un sh) sh d) _); [reflexivity| |apply destroy_tr; assumption].
  intros x. destruct x; reflexivity.
Qed.

(** ** Decoupled, and moving bodies *)
Lemma de_table d x : stage 4 (gde Un sh) sh d x = table Decoupled sh d x.
Proof. destruct x; reflexivity. Qed.
Lemma rk_table d x : stage 4 (gde (Li KVec []) sh) sh d x = table Moving sh d x.
Proof. destruct x; reflexivity. Qed.

Lemma de_init_tr : tr (stage 0 gde0 sh none) (de_init sh) (stage 4 (gde Un sh) sh none).
Proof.
  unfold de_init. eapply tr_app; [eapply init_tr; [apply operators_tr; assumption|apply vectors_tr; assumption]|].
  exact (de_tail_tr conv diff bn keep kv kp kf root restart ps nb dim).
Qed.
Lemma de_io_tr u d : tr (stage 4 (gde u sh) sh d) (de_io sh) (stage 4 (gde u sh) sh d).
Proof.
  unfold de_io. apply tr_if; [|apply write_tr; assumption]. eapply tr_app; [apply read_tr; assumption|apply de_force_file_tr].
Qed.
Lemma de_ctor_tr : tr (fun _ => Un) de_ctor (stage 0 gde0 sh none).
Proof. intros x. destruct x; reflexivity. Qed.

Lemma de_start_tr : tr (fun _ => Un) (start Decoupled sh) (table Decoupled sh none).
Proof.
  apply (tr_ext (fun _ => Un) _ (stage 4 (gde Un sh) sh none) _); [reflexivity|apply de_table|].
  exact (tr_app _ _ _ _ _ de_ctor_tr (tr_app _ _ _ _ _ de_init_tr (de_io_tr Un none))).
Qed.
Lemma rk_start_tr : tr (fun _ => Un) (start Moving sh) (table Moving sh none).
Proof.
  apply (tr_ext (fun _ => Un) _ (stage 4 (gde (Li KVec []) sh) sh none) _); [reflexivity|apply rk_table|].
  refine (tr_app _ _ _ _ _ de_ctor_tr (tr_app _ _ _ _ _ (tr_app _ _ _ _ _ de_init_tr _) (tr_app _ _ _ _ _ (de_io_tr (Li KVec []) none) _))).
  - apply rk_velocity_tr.
  - apply write_bodies_tr.
Qed.

Lemma de_advance_tr u d rhs :
  tr (stage 4 (gde u sh) sh d) rhs (stage 4 (gde u sh) sh d) ->
  tr (stage 4 (gde u sh) sh d) (de_advance_with sh rhs) (stage 4 (gde u sh) sh d).
Proof.
  intros Hr. unfold de_advance_with.
  repeat (eapply tr_app; [first [apply rhs_tr; assumption|apply solve_velocity_tr|apply rhs_poisson_tr|apply solve_poisson_tr|apply project_tr
    |apply de_push_tr|exact Hr|apply de_solve_tr|apply de_no_slip_tr|apply de_update_tr]|]).
  apply ghost_tr.
Qed.
Lemma de_write_tr u d e : tr (stage 4 (gde u sh) sh d) (de_write sh e) (stage 4 (gde u sh) sh (grown sh e d)).
Proof.
  unfold de_write. apply (tr_app _ (stage 4 (gde u sh) sh (grown sh e d))); [|apply de_avg_tr].
  apply write_with_tr; [eapply tr_app; [apply info_tr|apply de_info_tr]|apply write_tr; assumption|].
  unfold de_write_restart. eapply tr_app; [apply restart_with_tr; apply write_tr; assumption|apply de_force_file_tr].
Qed.

Lemma de_step_tr d e : tr (table Decoupled sh d) (step Decoupled sh e) (table Decoupled sh (grown sh e d)).
Proof.
  apply (tr_ext (stage 4 (gde Un sh) sh d) _ (stage 4 (gde Un sh) sh (grown sh e d)) _); [apply de_table|apply de_table|].
  refine (tr_app _ _ _ _ _ (de_advance_tr Un d _ _) (de_write_tr Un d e)). apply de_rhs_tr.
Qed.
Lemma rk_step_tr d e : tr (table Moving sh d) (step Moving sh e) (table Moving sh (grown sh e d)).
Proof.
  apply (tr_ext (stage 4 (gde (Li KVec []) sh) sh d) _ (stage 4 (gde (Li KVec []) sh) sh (grown sh e d)) _); [apply rk_table|apply rk_table|].
  refine (tr_app _ _ _ _ _ (tr_app _ _ _ _ _ _ (de_advance_tr (Li KVec []) d _ _)) (tr_app _ _ _ _ _ (de_write_tr (Li KVec []) d e) _)).
  - apply move_tr.
  - eapply tr_app; [apply de_rhs_tr|apply rk_rhs_tr].
  - apply tr_when. apply write_bodies_tr.
Qed.

Lemma de_destroy_any_tr u d : tr (stage 4 (gde u sh) sh d) (de_destroy sh) (gone (left_over Decoupled u sh) sh d).
Proof.
  change (de_destroy sh) with ([ODrop SfKsp] ++ bodies_reset sh ++
    [ODrop Sdf; ODrop Sf; ODrop Srhsf; ODrop SH; ODrop SE; ODrop SEBNH; ODrop SBNH; ODrop SforcesV] ++ ns_destroy sh).
  rewrite (app_assoc (bodies_reset sh)), (app_assoc [ODrop SfKsp]). eapply tr_app; [apply de_release_tr|]. apply destroy_tr; assumption.
Qed.
Lemma de_destroy_tr d : tr (table Decoupled sh d) (destroy Decoupled sh) (after Decoupled sh d).
Proof.
  apply (tr_ext (stage 4 (gde Un sh) sh d) _ (gone (left_over Decoupled Un sh) sh d) _); [apply de_table| |apply de_destroy_any_tr].
  intros x. destruct x; reflexivity.
Qed.
Lemma rk_destroy_tr d : tr (table Moving sh d) (destroy Moving sh) (after Moving sh d).
Proof.
  apply (tr_ext (stage 4 (gde (Li KVec []) sh) sh d) _ (after Moving sh d) _); [apply rk_table|reflexivity|].
  cbn [destroy]. unfold rk_destroy. eapply tr_app; [apply de_destroy_any_tr|]. intros x.
  assert (E : acts x [ODrop SUB] (gone (left_over Decoupled (Li KVec []) sh) sh d x) =
              Some (match x with SUB => Nu | _ => gone (left_over Decoupled (Li KVec []) sh) sh d x end)) by (destruct x; reflexivity).
  rewrite E. f_equal. destruct x; reflexivity.
Qed.

(** Again. *)
Lemma de_release_again_tr u d : tr (gone (left_over Decoupled u sh) sh d) (de_release sh) (gone (left_over Decoupled u sh) sh d).
Proof.
  unfold tr, gone, left_over, nothing. let x := fresh "x" in intros x; destruct x; cbn [ib_slot]; tables;
  prepare conv diff kv kp kf ps nb; cbn [ksp_of on]; piece.
Qed.
Lemma de_again_any_tr u d : tr (gone (left_over Decoupled u sh) sh d) (de_destroy sh) (gone (left_over Decoupled u sh) sh d).
Proof.
  change (de_destroy sh) with ([ODrop SfKsp] ++ bodies_reset sh ++
    [ODrop Sdf; ODrop Sf; ODrop Srhsf; ODrop SH; ODrop SE; ODrop SEBNH; ODrop SBNH; ODrop SforcesV] ++ ns_destroy sh).
  rewrite (app_assoc (bodies_reset sh)), (app_assoc [ODrop SfKsp]). eapply tr_app; [apply de_release_again_tr|]. apply destroy_again_tr; assumption.
Qed.
Lemma de_again_tr d : tr (after Decoupled sh d) (destroy Decoupled sh) (after Decoupled sh d).
Proof.
  apply (tr_ext (gone (left_over Decoupled Un sh) sh d) _ (gone (left_over Decoupled Un sh) sh d) _); [| |apply de_again_any_tr]; intros x; destruct x; reflexivity.
Qed.
Lemma rk_again_tr d : tr (after Moving sh d) (destroy Moving sh) (after Moving sh d).
Proof.
  apply (tr_ext (gone (left_over Decoupled Nu sh) sh d) _ (gone (left_over Decoupled Nu sh) sh d) _); [intros x; destruct x; reflexivity..|].
  cbn [destroy]. unfold rk_destroy. eapply tr_app; [apply de_again_any_tr|]. intros x. destruct x; reflexivity.
Qed.
End Run.

Section All.
Variable sh : shape.
Hypothesis W : wf_shape sh.

Lemma wf_fields : fields_ok (s_dim sh) (s_probes sh).
Proof. destruct W as (_ & _ & _ & _ & _ & Hp). intros i p E. apply nthZ_In in E. specialize (Hp p E). destruct p; exact Hp. Qed.

Lemma shape_eta : sh = the_shape (s_dim sh) (s_conv sh) (s_diff sh) (s_bn sh) (s_keep sh) (s_kspv sh) (s_kspp sh) (s_kspf sh) (s_root sh)
  (s_restart sh) (s_probes sh) (s_bodies sh).
Proof. destruct sh. reflexivity. Qed.

Lemma start_tr a : tr (fun _ => Un) (start a sh) (table a sh none).
Proof.
  destruct W as (Hd & _). pose proof wf_fields as Hf. rewrite shape_eta.
  destruct a; [apply ns_start_tr|apply co_start_tr|apply de_start_tr|apply rk_start_tr]; assumption.
Qed.
Lemma step_tr a d e : tr (table a sh d) (step a sh e) (table a sh (grown sh e d)).
Proof.
  destruct W as (Hd & _). pose proof wf_fields as Hf. rewrite shape_eta.
  destruct a; [apply ns_step_tr|apply co_step_tr|apply de_step_tr|apply rk_step_tr]; assumption.
Qed.
Lemma destroy_all_tr a d : tr (table a sh d) (destroy a sh) (after a sh d).
Proof.
  destruct W as (Hd & _). pose proof wf_fields as Hf. rewrite shape_eta.
  destruct a; [apply ns_destroy_tr|apply co_destroy_all_tr|apply de_destroy_tr|apply rk_destroy_tr]; assumption.
Qed.
Lemma again_tr a d : a <> Coupled -> tr (after a sh d) (destroy a sh) (after a sh d).
Proof.
  intros Ha. destruct W as (Hd & _). pose proof wf_fields as Hf. rewrite shape_eta.
  destruct a; [apply ns_again_tr|congruence|apply de_again_tr|apply rk_again_tr]; assumption.
Qed.

Lemma steps_tr a es : forall d, exists d', tr (table a sh d) (flat_map (step a sh) es) (table a sh d').
Proof.
  induction es as [|e es IH]; intros d; [exists d; apply tr_nil|]. destruct (IH (grown sh e d)) as [d' H]. exists d'. cbn [flat_map].
  exact (tr_app _ _ _ _ _ (step_tr a d e) H).
Qed.
End All.
