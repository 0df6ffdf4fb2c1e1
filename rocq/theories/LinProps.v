(** Linear solves that do not converge (C64). *)
From Coq Require Import String ZifyBool.
From Verif Require Import Prelude ZSum RSum TypesModel GridModel GridSpec MeshProof IndexModel IndexSpec BoundaryModel BoundarySpec OperatorModel OperatorSpec
  MatModel BnModel BnSpec NSModel NSSpec NSProof NSTotal NameModel DriverModel DriverSpec DriverProps BodyModel DeltaModel IbpmModel IbpmSpec IbOutModel
  BoundaryProof ExampleSetup NSProps DeltaProps ConvModel ConvProps DecConv SimProps LinModel LinSpec LinProof.
Local Open Scope R_scope.

(** C64, Navier-Stokes solver. A configuration whose run would complete with the
    solutions the solves return, converged or not ([ns_main]). Either every
    solve of every step converged: the program ends as that run, with the same
    files. Or one did not: the program returns the error code of PETSc, and
    leaves exactly the files, and has performed exactly the operations, of the
    run that stops after the step before, whose last state is the one from
    which the solves fail to converge. *)
Theorem failed_solve_stops_run : forall m D P types values t0 U0 p0 conv kv kp conf mon fuel d ops s0 s2 d2 tr,
  ns_init m D P types values t0 (c_nstart conf) U0 p0 = Ok (ops, s0) ->
  let main n := ns_main fuel (with_nt conf n) m D P types values t0 U0 p0 mon conv (returned kv) (returned kp) d in
  let program := ns_main_all fuel conf m D P types values t0 U0 p0 mon conv kv kp d in
  main (c_nt conf) = Ok (Some (s2, d2, tr)) ->
  program = (Ok (Some s2), d2, tr) /\
    (forall k sk dk trk, (0 <= k < c_nt conf)%Z -> main k = Ok (Some (sk, dk, trk)) -> step_converged m D P ops conv kv kp sk) \/
  exists k sk dk trk rest, (0 <= k < c_nt conf)%Z /\ program = (Err PETSC_ERR_CONV_FAILED, dk, trk) /\
    main k = Ok (Some (sk, dk, trk)) /\ ~ step_converged m D P ops conv kv kp sk /\ tr = (trk ++ rest)%list.
Proof.
  intros m D P types values t0 U0 p0 conv kv kp conf mon fuel d ops s0 s2 d2 tr HI main program H. unfold main in H. rewrite with_nt_same in H.
  exact (ns_split m D P types values t0 U0 p0 conv kv kp conf mon fuel d ops s0 s2 d2 tr HI H).
Qed.
Print Assumptions failed_solve_stops_run.

(** C64. New or restarted, a run of the Navier-Stokes solver that has been
    initialised either completes or ends with that error code. *)
Theorem run_completes_or_stops : forall m D P types values t0 U0 p0 kv kp conf mon fuel d ops s1,
  mesh_setup m D -> bc_fits m types -> started conf m D P types values t0 U0 p0 d ops s1 ->
  c_nsave conf <> 0%Z -> c_nrestart conf <> 0%Z -> (c_nt conf <= Z.of_nat fuel)%Z ->
  (exists s2 d2 tr, ns_main_all fuel conf m D P types values t0 U0 p0 mon (convection m D) kv kp d = (Ok (Some s2), d2, tr)) \/
  (exists d2 tr, ns_main_all fuel conf m D P types values t0 U0 p0 mon (convection m D) kv kp d = (Err PETSC_ERR_CONV_FAILED, d2, tr)).
Proof.
  intros m D P types values t0 U0 p0 kv kp conf mon fuel d ops s1 Hs Hb Hst. apply (ns_outcome m D P types values t0 U0 p0 (convection m D) kv kp conf mon fuel d Hs Hb ops s1 Hst).
  intros h B x HB. eapply convection_total; eauto.
Qed.
Print Assumptions run_completes_or_stops.

(** C64, coupled solver. *)
Theorem coupled_failed_solve : forall m D P types values name bodies t0 U0 p0 conv kv kp conf mon fuel d IO s0 s2 d2 ls,
  ib_init m D P types values name bodies t0 (c_nstart conf) U0 p0 = Ok (IO, s0) ->
  let main n := ib_main fuel (with_nt conf n) m D P types values name bodies t0 U0 p0 mon conv (returned kv) (returned kp) d in
  let program := ib_main_all fuel conf m D P types values name bodies t0 U0 p0 mon conv kv kp d in
  main (c_nt conf) = Ok (Some (s2, d2, ls)) ->
  program = (Ok (Some s2), d2, ls) /\
    (forall k sk dk lsk, (0 <= k < c_nt conf)%Z -> main k = Ok (Some (sk, dk, lsk)) -> ib_step_converged m D P IO conv kv kp sk) \/
  exists k sk dk lsk rest, (0 <= k < c_nt conf)%Z /\ program = (Err PETSC_ERR_CONV_FAILED, dk, lsk) /\
    main k = Ok (Some (sk, dk, lsk)) /\ ~ ib_step_converged m D P IO conv kv kp sk /\ ls = (lsk ++ rest)%list.
Proof. intros m D P types values name bodies t0 U0 p0 conv kv kp conf mon fuel d IO s0 s2 d2 ls. apply ib_split. Qed.
Print Assumptions coupled_failed_solve.

(** C64, decoupled solver. *)
Theorem decoupled_failed_solve : forall m D P types values name bodies t0 U0 p0 conv kv kp kf conf mon fuel d OX x0 x2 d2 ls,
  d_init m D P types values name bodies t0 (c_nstart conf) U0 p0 = Ok (OX, x0) ->
  let main n := d_main fuel (with_nt conf n) m D P types values name bodies t0 U0 p0 mon conv (returned kv) (returned kp) (returned kf) d in
  let program := d_main_all fuel conf m D P types values name bodies t0 U0 p0 mon conv kv kp kf d in
  let converging := d_step_converged m D P (fst OX) (snd OX) (n_forces m bodies) conv (d_assembleRHSForces m (snd OX)) kv kp kf in
  main (c_nt conf) = Ok (Some (x2, d2, ls)) ->
  program = (Ok (Some x2), d2, ls) /\
    (forall k xk dk lsk, (0 <= k < c_nt conf)%Z -> main k = Ok (Some (xk, dk, lsk)) -> converging xk) \/
  exists k xk dk lsk rest, (0 <= k < c_nt conf)%Z /\ program = (Err PETSC_ERR_CONV_FAILED, dk, lsk) /\
    main k = Ok (Some (xk, dk, lsk)) /\ ~ converging xk /\ ls = (lsk ++ rest)%list.
Proof. intros m D P types values name bodies t0 U0 p0 conv kv kp kf conf mon fuel d OX x0 x2 d2 ls. apply d_split. Qed.
Print Assumptions decoupled_failed_solve.

(** C64, moving bodies. *)
Theorem moving_failed_solve : forall m D P types values name bodies mo t0 U0 p0 conv kv kp kf conf mon fuel d O s0 s2 d2 ls,
  r_init m D P types values name bodies t0 (c_nstart conf) U0 p0 = Ok (O, s0) ->
  let main n := r_main fuel (with_nt conf n) m D P types values name bodies mo t0 U0 p0 mon conv (returned kv) (returned kp) (fun A => returned (kf A)) d in
  let program := r_main_all fuel conf m D P types values name bodies mo t0 U0 p0 mon conv kv kp kf d in
  let converging := r_step_converged m D P O name mo conv kv kp kf in
  main (c_nt conf) = Ok (Some (s2, d2, ls)) ->
  program = (Ok (Some s2), d2, ls) /\
    (forall k sk dk lsk, (0 <= k < c_nt conf)%Z -> main k = Ok (Some (sk, dk, lsk)) -> converging sk) \/
  exists k sk dk lsk rest, (0 <= k < c_nt conf)%Z /\ program = (Err PETSC_ERR_CONV_FAILED, dk, lsk) /\
    main k = Ok (Some (sk, dk, lsk)) /\ ~ converging sk /\ ls = (lsk ++ rest)%list.
Proof. intros m D P types values name bodies mo t0 U0 p0 conv kv kp kf conf mon fuel d O s0 s2 d2 ls. apply r_split. Qed.
Print Assumptions moving_failed_solve.

(** Non-vacuity: on the example mesh with walls, three steps. With solves that
    converge (reason 2, KSP_CONVERGED_RTOL) the run completes; with a momentum
    solver that never converges (reason -3, KSP_DIVERGED_ITS) it stops in the
    first step: what was written is what a run of no step writes. *)
Example failed_solve_case : forall refp U0 p0 d sol, let m := un_mesh false false in let D := un_dec false false in let P := ex_par refp in
  let types := un_types false false in let conf := mkConf "o" "l" 0 3 1 1 in
  let good : ksp := fun g b => (sol g b, 2%Z) in let bad : ksp := fun g b => (sol g b, (-3)%Z) in
  (exists s2 d2 tr, ns_main_all 3 conf m D P types (fun _ _ => 0) 0 U0 p0 (fun _ => []) (convection m D) good good d = (Ok (Some s2), d2, tr)) /\
  (exists s0 d0 tr0, ns_main 3 (with_nt conf 0) m D P types (fun _ _ => 0) 0 U0 p0 (fun _ => []) (convection m D) sol sol d = Ok (Some (s0, d0, tr0)) /\
     ns_main_all 3 conf m D P types (fun _ _ => 0) 0 U0 p0 (fun _ => []) (convection m D) bad good d = (Err 82%Z, d0, tr0)).
Proof.
  intros refp U0 p0 d sol m D P types conf good bad. pose proof (un_setup false false) as Hs. pose proof (un_fits false false) as Hb.
  assert (X : forall nt, (nt <= 3)%Z -> exists ops s1 s2 d2 tr, started (with_nt conf nt) m D P types (fun _ _ => 0) 0 U0 p0 d ops s1 /\
     ns_main 3 (with_nt conf nt) m D P types (fun _ _ => 0) 0 U0 p0 (fun _ => []) (convection m D) sol sol d = Ok (Some (s2, d2, tr))).
  { intros nt Hnt. apply simulation_completes; auto; try (cbn; lia). }
  destruct (X 3%Z ltac:(lia)) as (ops & s1 & s2 & d2 & tr & (s0 & w & HI & HIO) & HM). split.
  - destruct (failed_solve_stops_run m D P types (fun _ _ => 0) 0 U0 p0 (convection m D) good good conf (fun _ => []) 3 d ops s0 s2 d2 tr HI HM)
      as [[E _]|(k & sk & dk & trk & rest & _ & _ & _ & N & _)]; [eauto|].
    exfalso. apply N. split; intros ? ? ?; unfold converged, good; cbn; lia.
  - assert (Hst : started conf m D P types (fun _ _ => 0) 0 U0 p0 d ops s1) by (exists s0, w; auto).
    assert (Hc : forall h B x, boundary_after m D types (fun _ _ => 0) ([OpICs U0] ++ h) B -> is_ok (convection m D B x)) by (intros h B x HB; eapply convection_total; eauto).
    destruct (started_total m D P types (fun _ _ => 0) 0 U0 p0 (convection m D) conf d Hs Hb ops s1 sol sol 0 Hst Hc) as (s & Es & Hok). injection Es as <-.
    assert (N : ~ step_converged m D P ops (convection m D) bad good s1).
    { destruct Hok as [s' Ea]. intros [G _]. destruct (advance_inv _ _ _ _ _ _ _ _ _ Ea) as (rhs1 & sx & ? & E & _). specialize (G _ _ E). unfold converged, bad in G. cbn [snd] in G. lia. }
    destruct (ksp_step_cases (n_pressure m) m D P ops (assembleRHSVelocity m D P ops (convection m D)) (assembleRHSPoisson m D P ops) bad good s1 Hok) as [Gg|[_ Ek]]; [contradiction|].
    destruct (ns_main_all_unfold m D P types (fun _ _ => 0) 0 U0 p0 (convection m D) bad good conf (fun _ => []) 3 d ops s1 Hst) as (w0 & d1 & Hi & EM & EA).
    exists s1, d1, [(s_ite s1, w0)]. rewrite EM, EA. change (c_nstart conf) with 0%Z in Hi. clear - Hi Ek. cbn [pure_loop loop_all with_nt c_nstart c_nt conf]. rewrite Hi.
    change (0 >=? 0 + 0)%Z with true. change (0 >=? 0 + 3)%Z with false. cbv iota. unfold ns_advance_ksp. rewrite Ek. split; reflexivity.
Qed.
