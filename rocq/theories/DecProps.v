(** C62: a run does not depend on the process grid, nor on the linear solvers as
    long as they return solutions. *)
From Coq Require Import ZifyBool.
From Verif Require Import Prelude ZSum RSum TypesModel GridModel GridSpec GridProof MeshProof IndexModel IndexSpec IndexProof
  BoundaryModel BoundarySpec BoundaryProof OperatorModel OperatorSpec OperatorProof BStateProof
  MatModel BnModel NSModel NSSpec NSProof NSPin NSTotal ConvModel ConvSpec ConvProps UniqueProof UniqueProps ExampleSetup DecSpec DecProof DecConv.
Local Open Scope R_scope.

(** Two states on two process grids hold the same time, step, velocity,
    explicit history, and the same pressure; without a reference pressure only
    up to a constant. *)
Definition same_state (m : mesh) (D1 D2 : dec) (refp : bool) (s1 s2 : nsstate) : Prop :=
  s_t s1 = s_t s2 /\ s_ite s1 = s_ite s2 /\ same_velocity m D1 D2 (s_U s1) (s_U s2) /\
  (if refp then same_pressure D1 D2 (s_p s1) (s_p s2) else same_pressure_up_to_constant D1 D2 (s_p s1) (s_p s2)) /\
  Forall2 (same_velocity m D1 D2) (s_conv s1) (s_conv s2) /\ Forall2 (same_velocity m D1 D2) (s_diff s1) (s_diff s2).

Lemma runs_agree_lemma m D1 D2 P types values t0 n0 U1 U2 q1 q2 ops1 ops2 a1 a2 conv1 conv2 vs1 vs2 ps1 ps2 k s1 s2 :
  mesh_setup m D1 -> mesh_setup m D2 -> bc_fits m types -> periodic_min m 3 -> no_normal_neumann m types ->
  0 <= p_dimp P * p_nu P -> 0 < p_dt P -> p_bn P = 1%Z ->
  conv_agree m D1 D2 types values conv1 conv2 ->
  ns_init m D1 P types values t0 n0 U1 q1 = Ok (ops1, a1) -> ns_init m D2 P types values t0 n0 U2 q2 = Ok (ops2, a2) ->
  same_velocity m D1 D2 U1 U2 -> same_pressure D1 D2 q1 q2 ->
  exact_run m D1 P ops1 conv1 vs1 ps1 a1 k -> exact_run m D2 P ops2 conv2 vs2 ps2 a2 k ->
  ns_steps m D1 P ops1 conv1 vs1 ps1 k a1 = Ok s1 -> ns_steps m D2 P ops2 conv2 vs2 ps2 k a2 = Ok s2 ->
  same_state m D1 D2 (p_refp P) s1 s2.
Proof.
  intros Hs1 Hs2 Hb Hmin Hnn Hc Hdt Hbn Hcv HI1 HI2 HU Hq X1 X2 E1 E2.
  assert (Hq' : same_pressure_up_to_constant D1 D2 q1 q2) by (exists 0; intros i1 i2 p N1 N2; rewrite (Hq _ _ _ N1 N2); ring).
  destruct (run_rel m D1 D2 types values Hs1 Hs2 Hb Hmin Hnn P t0 n0 U1 U2 q1 q2 ops1 ops2 a1 a2 HI1 HI2 HU Hc Hdt Hbn conv1 conv2 vs1 vs2 ps1 ps2 Hcv k s1 s2 Hq' X1 X2 E1 E2)
    as (St & Si & SU & (a & Ha & Sp) & Sc & Sd & _).
  assert (L : forall l1 l2, Forall2 (vv m D1 D2) l1 l2 -> Forall2 (same_velocity m D1 D2) l1 l2).
  { intros l1 l2 H. induction H; constructor; auto. now apply (vv_same m D1 D2 Hs1 Hs2). }
  split; [exact St|]. split; [exact Si|]. split; [now apply (vv_same m D1 D2 Hs1 Hs2)|]. split; [|auto].
  apply (pp_same m D1 D2 Hs1 Hs2) in Sp. destruct (p_refp P); [|exists a; exact Sp].
  rewrite (Ha eq_refl Hq) in Sp. intros i1 i2 p N1 N2. rewrite (Sp _ _ _ N1 N2). ring.
Qed.

(** C62. Two runs on two process grids, from the same initial fields, with any
    linear solvers that return solutions of the systems they are given and with
    nothing flowing through the boundaries that are not periodic: both make any
    number k of steps and then hold the same state. *)
Theorem run_independent_of_grid : forall m D1 D2 P types values t0 n0 U1 U2 q1 q2 ops1 ops2 a1 a2 vs1 vs2 ps1 ps2 k,
  mesh_setup m D1 -> mesh_setup m D2 -> bc_fits m types -> periodic_min m 3 -> impermeable m types values ->
  0 <= p_dimp P * p_nu P -> 0 < p_dt P -> p_bn P = 1%Z ->
  ns_init m D1 P types values t0 n0 U1 q1 = Ok (ops1, a1) -> ns_init m D2 P types values t0 n0 U2 q2 = Ok (ops2, a2) ->
  same_velocity m D1 D2 U1 U2 -> same_pressure D1 D2 q1 q2 ->
  exact_run m D1 P ops1 (convection m D1) vs1 ps1 a1 k -> exact_run m D2 P ops2 (convection m D2) vs2 ps2 a2 k ->
  exists s1 s2, ns_steps m D1 P ops1 (convection m D1) vs1 ps1 k a1 = Ok s1 /\ ns_steps m D2 P ops2 (convection m D2) vs2 ps2 k a2 = Ok s2 /\
    same_state m D1 D2 (p_refp P) s1 s2.
Proof.
  intros m D1 D2 P types values t0 n0 U1 U2 q1 q2 ops1 ops2 a1 a2 vs1 vs2 ps1 ps2 k Hs1 Hs2 Hb Hmin Hi Hc Hdt Hbn HI1 HI2 HU Hq X1 X2.
  destruct (steps_total m D1 P types values (setup_facts _ _ Hs1) Hb (convection m D1) vs1 ps1 t0 n0 U1 q1 ops1 a1 k HI1) as (s1 & E1); [intros; eapply convection_total; eauto|].
  destruct (steps_total m D2 P types values (setup_facts _ _ Hs2) Hb (convection m D2) vs2 ps2 t0 n0 U2 q2 ops2 a2 k HI2) as (s2 & E2); [intros; eapply convection_total; eauto|].
  exists s1, s2. split; [exact E1|]. split; [exact E2|].
  eapply (runs_agree_lemma m D1 D2 P types values t0 n0 U1 U2 q1 q2 ops1 ops2 a1 a2); eauto.
  - now apply (impermeable_neumann m types values).
  - now apply conv_agree_impermeable.
Qed.
Print Assumptions run_independent_of_grid.

(** C62. On one process grid: the solvers do not matter, with open boundaries
    too (no Neumann condition on a normal velocity). *)
Theorem run_independent_of_solver : forall m D P types values t0 n0 U0 q0 ops a vs1 vs2 ps1 ps2 k,
  mesh_setup m D -> bc_fits m types -> periodic_min m 3 -> no_normal_neumann m types ->
  0 <= p_dimp P * p_nu P -> 0 < p_dt P -> p_bn P = 1%Z ->
  ns_init m D P types values t0 n0 U0 q0 = Ok (ops, a) ->
  exact_run m D P ops (convection m D) vs1 ps1 a k -> exact_run m D P ops (convection m D) vs2 ps2 a k ->
  exists s1 s2, ns_steps m D P ops (convection m D) vs1 ps1 k a = Ok s1 /\ ns_steps m D P ops (convection m D) vs2 ps2 k a = Ok s2 /\
    same_state m D D (p_refp P) s1 s2.
Proof.
  intros m D P types values t0 n0 U0 q0 ops a vs1 vs2 ps1 ps2 k Hs Hb Hmin Hn Hc Hdt Hbn HI X1 X2.
  destruct (steps_total m D P types values (setup_facts _ _ Hs) Hb (convection m D) vs1 ps1 t0 n0 U0 q0 ops a k HI) as (s1 & E1); [intros; eapply convection_total; eauto|].
  destruct (steps_total m D P types values (setup_facts _ _ Hs) Hb (convection m D) vs2 ps2 t0 n0 U0 q0 ops a k HI) as (s2 & E2); [intros; eapply convection_total; eauto|].
  exists s1, s2. split; [exact E1|]. split; [exact E2|].
  apply (runs_agree_lemma m D D P types values t0 n0 U0 U0 q0 q0 ops ops a a (convection m D) (convection m D) vs1 vs2 ps1 ps2 k); auto.
  - now apply conv_agree_same.
  - apply (vv_same m D D Hs Hs). intros ? _. reflexivity.
  - apply (pp_same m D D Hs Hs). intros ? _. reflexivity.
Qed.
Print Assumptions run_independent_of_solver.

(** Linear solvers that return a solution in every step exist. *)
Lemma exact_solvers m D P types values t0 n0 U0 p0 ops s0 : mesh_setup m D -> bc_fits m types -> periodic_min m 3 -> no_normal_neumann m types ->
  0 <= p_dimp P * p_nu P -> 0 < p_dt P -> p_bn P = 1%Z -> p_refp P = true -> ns_init m D P types values t0 n0 U0 p0 = Ok (ops, s0) ->
  exists vs ps, forall conv k, exact_run m D P ops conv vs ps s0 k.
Proof.
  intros Hs Hb Hmin Hn Hc Hdt Hbn Hr HI.
  destruct (solver_exists (n_velocity m) (o_A ops)) as [S1 H1].
  { apply (nv_nonneg m D Hs). }
  { intros b. destruct (momentum_system_unique m D P types values t0 n0 U0 p0 ops s0 Hs Hb Hmin Hc Hdt HI b) as (x & Hx & _). eauto. }
  destruct (solver_exists (n_pressure m) (o_DBNG ops)) as [S2 H2].
  { pose proof (np_pos m D Hs). lia. }
  { intros b. destruct (pinned_poisson_solvable m D P types values t0 n0 U0 p0 ops s0 Hs Hb ltac:(intros f d Hf Hd Hp; specialize (Hmin f d Hf Hd Hp); lia) Hn Hbn ltac:(lra) Hr HI b) as (x & Hx & _). eauto. }
  exists (fun _ => S1), (fun _ => S2). intros conv k j s _ _ rhs1 s1 rhs2 _ _. auto.
Qed.

(** The hypotheses are met: a lid-driven cavity on the stretched mesh, on one
    rank and on two, and solvers of both. *)
Definition lid_values (f loc : Z) : R := if ((f =? 0) && (loc =? 3))%Z then 1 else 0.
Example cavity_case : forall k, let m := ex_mesh false false in let D1 := one_dec false false in let D2 := ex_dec false false in
  let P := mkPar (1/100) 1 1 [3/2; -(1/2)] (1/2) [1/2] true in
  exists ops1 ops2 a1 a2 vs1 vs2 ps1 ps2,
  mesh_setup m D1 /\ mesh_setup m D2 /\ nranks D1 = 1%Z /\ nranks D2 = 2%Z /\ bc_fits m (box_types false) /\ periodic_min m 3 /\ impermeable m (box_types false) lid_values /\
  0 <= p_dimp P * p_nu P /\ 0 < p_dt P /\ p_bn P = 1%Z /\
  ns_init m D1 P (box_types false) lid_values 0 0 (fun _ => 0) (fun _ => 0) = Ok (ops1, a1) /\ ns_init m D2 P (box_types false) lid_values 0 0 (fun _ => 0) (fun _ => 0) = Ok (ops2, a2) /\
  same_velocity m D1 D2 (fun _ => 0) (fun _ => 0) /\ same_pressure D1 D2 (fun _ => 0) (fun _ => 0) /\
  exact_run m D1 P ops1 (convection m D1) vs1 ps1 a1 k /\ exact_run m D2 P ops2 (convection m D2) vs2 ps2 a2 k.
Proof.
  intros k m D1 D2 P. pose proof (one_setup false false) as Hs1. pose proof (ex_setup false false) as Hs2. pose proof (box_fits false) as Hb.
  assert (Hmin : periodic_min m 3).
  { intros f d Hf Hd Hp. exfalso. unfold m in Hp, Hd. rewrite ex_dim in Hd. assert (d = 0 \/ d = 1)%Z as [->| ->] by lia; vm_compute in Hp; discriminate. }
  assert (Hi : impermeable m (box_types false) lid_values).
  { intros f loc Hf Hl Hlf _. split; [reflexivity|]. unfold lid_values. unfold m in Hf. rewrite ex_dim in Hf.
    destruct (Z.eqb_spec f 0) as [->|N]; [|reflexivity]. destruct (Z.eqb_spec loc 3) as [->|N]; [discriminate|reflexivity]. }
  pose proof (impermeable_neumann m _ _ Hb Hi) as Hn.
  destruct (init_total m D1 P (box_types false) lid_values 0 0 (fun _ => 0) (fun _ => 0) (setup_facts _ _ Hs1) Hb ltac:(cbn; lia)) as (ops1 & a1 & HI1).
  destruct (init_total m D2 P (box_types false) lid_values 0 0 (fun _ => 0) (fun _ => 0) (setup_facts _ _ Hs2) Hb ltac:(cbn; lia)) as (ops2 & a2 & HI2).
  assert (Hc : 0 <= p_dimp P * p_nu P) by (cbn; lra). assert (Hdt : 0 < p_dt P) by (cbn; lra).
  destruct (exact_solvers m D1 P _ _ _ _ _ _ _ _ Hs1 Hb Hmin Hn Hc Hdt eq_refl eq_refl HI1) as (vs1 & ps1 & X1).
  destruct (exact_solvers m D2 P _ _ _ _ _ _ _ _ Hs2 Hb Hmin Hn Hc Hdt eq_refl eq_refl HI2) as (vs2 & ps2 & X2).
  exists ops1, ops2, a1, a2, vs1, vs2, ps1, ps2. repeat (split; [first [assumption|reflexivity]|]).
  split; [intros ? ? ? ? _ _; reflexivity|]. split; [intros ? ? ? _ _; reflexivity|]. split; [apply X1|apply X2].
Qed.
