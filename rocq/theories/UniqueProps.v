(** C61: the two systems of linear equations of a time step. *)
From Coq Require Import ZifyBool.
From Verif Require Import Prelude ZSum RSum TypesModel GridModel GridSpec GridProof MeshProof IndexModel IndexSpec IndexProof
  BoundaryModel BoundarySpec BoundaryProof OperatorModel OperatorSpec OperatorProof BStateProof LapProof AdjProof
  MatModel BnModel NSModel NSSpec NSProof NSPin NSTotal NSProps UniqueProof ExampleSetup.
Local Open Scope R_scope.

(** C61. Whatever the right-hand side, the momentum equations of a solver that
    was set up with a positive time step and a non-negative implicit diffusion
    coefficient have exactly one solution. *)
Theorem momentum_system_unique : forall m D P types values t0 n0 U0 p0 ops s0,
  mesh_setup m D -> bc_fits m types -> periodic_min m 3 -> 0 <= p_dimp P * p_nu P -> 0 < p_dt P ->
  ns_init m D P types values t0 n0 U0 p0 = Ok (ops, s0) ->
  forall b, exists x, solves (n_velocity m) (o_A ops) x b /\
    forall y, solves (n_velocity m) (o_A ops) y b -> forall i, (0 <= i < n_velocity m)%Z -> y i = x i.
Proof. intros. now apply (momentum_unique_ns m D P types values t0 n0 U0 p0 ops s0). Qed.
Print Assumptions momentum_system_unique.

(** C61. The solution is bounded by the time step times the largest entry of
    the right-hand side, for every viscosity and every spacing of the mesh. *)
Theorem momentum_solution_bounded : forall m D P types values t0 n0 U0 p0 ops s0 x b M,
  mesh_setup m D -> bc_fits m types -> periodic_min m 3 -> 0 <= p_dimp P * p_nu P -> 0 < p_dt P ->
  ns_init m D P types values t0 n0 U0 p0 = Ok (ops, s0) ->
  solves (n_velocity m) (o_A ops) x b -> (forall i, (0 <= i < n_velocity m)%Z -> Rabs (b i) <= M) ->
  forall i, (0 <= i < n_velocity m)%Z -> Rabs (x i) <= p_dt P * M.
Proof. intros m D P types values t0 n0 U0 p0 ops s0 x b M Hs Hb Hm Hc Hdt HI. now apply (momentum_bound_ns m D P types values t0 n0 U0 p0 ops s0). Qed.
Print Assumptions momentum_solution_bounded.

(** C61. With a pinned pressure (and BN of order 1, no Neumann condition on a
    normal velocity) the Poisson equation has exactly one solution. *)
Theorem pinned_poisson_solvable : forall m D P types values t0 n0 U0 p0 ops s0,
  mesh_setup m D -> bc_fits m types -> periodic_min m 2 -> no_normal_neumann m types -> p_bn P = 1%Z -> p_dt P <> 0 -> p_refp P = true ->
  ns_init m D P types values t0 n0 U0 p0 = Ok (ops, s0) ->
  forall b, exists x, solves (n_pressure m) (o_DBNG ops) x b /\
    forall y, solves (n_pressure m) (o_DBNG ops) y b -> forall i, (0 <= i < n_pressure m)%Z -> y i = x i.
Proof. intros m D P types values t0 n0 U0 p0 ops s0 Hs Hb Hm Hn Hbn Hdt Hp HI. now apply (pinned_unique_ns m D P types values t0 n0 U0 p0 ops s0). Qed.
Print Assumptions pinned_poisson_solvable.

(** C61. With the null space attached instead, it is solvable exactly when the
    right-hand side sums to zero, and the solutions are the translates of one
    another by a constant. *)
Theorem nullspace_poisson_solvable : forall m D P types values t0 n0 U0 p0 ops s0,
  mesh_setup m D -> bc_fits m types -> periodic_min m 2 -> no_normal_neumann m types -> p_bn P = 1%Z -> p_dt P <> 0 -> p_refp P = false ->
  ns_init m D P types values t0 n0 U0 p0 = Ok (ops, s0) ->
  forall b, ((exists x, solves (n_pressure m) (o_DBNG ops) x b) <-> total (n_pressure m) b = 0) /\
    (forall x, solves (n_pressure m) (o_DBNG ops) x b -> forall y, solves (n_pressure m) (o_DBNG ops) y b <->
       exists a, forall i, (0 <= i < n_pressure m)%Z -> y i = x i + a).
Proof. intros m D P types values t0 n0 U0 p0 ops s0 Hs Hb Hm Hn Hbn Hdt Hp HI. now apply (unpinned_ns m D P types values t0 n0 U0 p0 ops s0). Qed.
Print Assumptions nullspace_poisson_solvable.

(** * The hypotheses are met *)
(** On the walled stretched mesh and on the periodic one, with or without the
    reference pressure, from any initial fields. *)
Definition box_types (per : bool) (f loc : Z) : bctype := if per then PERIODIC else DIRICHLET.
Lemma box_fits per : bc_fits (ex_mesh per per) (box_types per).
Proof.
  intros f loc Hf Hl. rewrite ex_dim in Hl.
  assert (loc = 0 \/ loc = 1 \/ loc = 2 \/ loc = 3)%Z as [->|[->|[->| ->]]] by lia;
    destruct per; (split; [discriminate|split; [discriminate || reflexivity|discriminate || reflexivity]]).
Qed.
Example systems_case : forall (per refp : bool) U0 p0, let m := ex_mesh per per in let D := ex_dec per per in let P := mkPar (1/100) 1 1 [3/2; -(1/2)] (1/2) [1/2] refp in
  exists ops s0, mesh_setup m D /\ bc_fits m (box_types per) /\ periodic_min m 3 /\ no_normal_neumann m (box_types per) /\
    p_bn P = 1%Z /\ 0 <= p_dimp P * p_nu P /\ 0 < p_dt P /\
    ns_init m D P (box_types per) (fun _ _ => 1) 0 0 U0 p0 = Ok (ops, s0) /\ (2 <= n_pressure m)%Z /\ (2 <= n_velocity m)%Z.
Proof.
  intros per refp U0 p0 m D P. pose proof (ex_setup per per) as Hs.
  destruct (init_total m D P (box_types per) (fun _ _ => 1) 0 0 U0 p0 (setup_facts _ _ Hs) (box_fits per) ltac:(cbn; lia)) as (ops & s0 & HI).
  exists ops, s0. split; [exact Hs|]. split; [apply box_fits|].
  split. { destruct per; [apply ex_per_min; lia|]. intros f d Hf Hd Hp. exfalso. unfold m in Hp, Hd. rewrite ex_dim in Hd. assert (d = 0 \/ d = 1)%Z as [->| ->] by lia; vm_compute in Hp; discriminate. }
  split. { intros f Hf. unfold box_types. destruct per; split; discriminate. }
  split; [reflexivity|]. split; [cbn; lra|]. split; [cbn; lra|]. split; [exact HI|].
  destruct per; split; match goal with |- (_ <= ?a)%Z => let v := eval vm_compute in a in change a with v end; lia.
Qed.
