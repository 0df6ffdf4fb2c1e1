(** Theorems about the kinetic energy (C70). *)
From Coq Require Import Lia ZifyBool String List.
Import ListNotations.
From Verif Require Import Prelude ZSum RSum TypesModel GridModel GridSpec GridProof MeshProof
  IndexModel IndexSpec IndexProof BoundaryModel BoundarySpec BoundaryProof OperatorModel OperatorSpec OperatorProof BStateProof LapProof DivProof GradProof
  AdjProof SymProof MatModel BnModel NSModel NSSpec NSProof NSPin NSTotal LinAlg UniqueProof ConvSpec EnergySpec EnergyProof
  BodyModel DeltaModel DeltaSpec DeltaKernel DeltaProof IbpmModel IbpmSpec IbpmProof IbpmProps DeltaProps UniqueProps NSProps ExampleSetup EnergyRun.
Local Open Scope R_scope.

(** C70. Viscosity never feeds energy into any velocity: the power of the
    Laplacian is never positive, on every mesh and with every combination of
    boundary conditions. *)
Theorem viscosity_dissipates : forall m D types values h0 B l x,
  mesh_setup m D -> bc_fits m types -> periodic_min m 3 -> has_ics h0 -> boundary_after m D types values h0 B ->
  createLaplacian m D B = Ok l ->
  inner m D x (mvec (n_velocity m) (entry (op_log l)) x) <= 0.
Proof.
  intros m D types values h0 B l x Hs Hb Hm Hi HB El. rewrite (createLaplacian_ok m D types values h0 B (setup_facts _ _ Hs) Hb HB) in El. injection El as <-.
  now apply lap_dissipates.
Qed.
Print Assumptions viscosity_dissipates.

(** C70. A pressure does no work on a velocity without divergence. *)
Theorem pressure_does_no_work : forall m D types values h0 B d g u p,
  mesh_setup m D -> bc_fits m types -> periodic_min m 2 -> no_normal_neumann m types -> has_ics h0 -> boundary_after m D types values h0 B ->
  createDivergence m D B false = Ok d -> createGradient m D false = Ok g ->
  (forall r, (0 <= r < n_pressure m)%Z -> mvec (n_velocity m) (entry (op_log d)) u r = 0) ->
  inner m D u (mvec (n_pressure m) (entry g) p) = 0.
Proof.
  intros m D types values h0 B d g u p Hs Hb Hm Hn Hi HB Ed Eg Hu. pose proof (setup_facts _ _ Hs) as F.
  rewrite (createGradient_ok m D false F) in Eg. injection Eg as <-. rewrite (createDivergence_ok m D types values false h0 B F Hb HB) in Ed. injection Ed as <-.
  refine (adjoint_orthogonal (n_velocity m) (n_pressure m) (volume m D) _ _ u _ Hu p).
  intros r c Hr Hc. rewrite (dg_entry m D types values false h0 F Hb Hi Hm Hn r c Hr Hc). now rewrite (weight_volume m D Hs c Hc).
Qed.
Print Assumptions pressure_does_no_work.

(** C70. Any system has an exact solver, whether its matrix is singular or not. *)
Theorem exact_solver_exists : forall n A, (0 <= n)%Z -> exists solve, exact_solver n A solve.
Proof. exact exact_exists. Qed.
Print Assumptions exact_solver_exists.

(** C70. The energy balance of every step of every run whose boundaries are at
    rest: the stored energy loses the kinetic energy of the change of velocity
    and gains dt times the powers of the implicit viscous term and of the
    explicit terms. The pressure and the walls contribute nothing. The new
    velocity is free of divergence. *)
Theorem energy_budget : forall m D P types values t0 n0 U0 p0 O s0 conv vs ps k s s2,
  mesh_setup m D -> bc_fits m types -> periodic_min m 3 -> no_normal_neumann m types -> undriven m types values ->
  p_bn P = 1%Z -> 0 < p_dt P -> 0 <= p_dimp P * p_nu P ->
  ns_init m D P types values t0 n0 U0 p0 = Ok (O, s0) ->
  exact_solver (n_velocity m) (o_A O) vs -> exact_solver (n_pressure m) (o_DBNG O) ps ->
  ns_steps m D P O conv vs ps k s0 = Ok s -> advance m D P O conv vs ps s = Ok s2 ->
  (forall r, (0 <= r < n_pressure m)%Z -> mvec (n_velocity m) (entry (op_log (o_D O))) (s_U s2) r = 0) /\
  exists rhs1 s1, assembleRHSVelocity m D P O conv (begun P s) = Ok (rhs1, s1) /\
    let u1 := vs (s_U s) rhs1 in
    stored_energy (n_pressure m) m D P O s2 = stored_energy (n_pressure m) m D P O s - kinetic m D (fun i => u1 i - s_U s i)
      + p_dt P * (p_dimp P * p_nu P * inner m D u1 (mvec (n_velocity m) (entry (op_log (o_L O))) u1)
                  + inner m D u1 (fun i => weighted (p_cexp P) (s_conv s2) i + weighted (p_dexp P) (s_diff s2) i)).
Proof. intros. eapply ns_budget; eassumption. Qed.
Print Assumptions energy_budget.

(** C70. With implicit diffusion and no explicit term, the stored energy never
    increases, for every time step, mesh, process grid and initial velocity. *)
Theorem stokes_energy_never_increases : forall m D P types values t0 n0 U0 p0 O s0 conv vs ps k s s2,
  mesh_setup m D -> bc_fits m types -> periodic_min m 3 -> no_normal_neumann m types -> undriven m types values ->
  p_bn P = 1%Z -> 0 < p_dt P -> 0 <= p_dimp P * p_nu P -> p_cexp P = [] -> p_dexp P = [] ->
  ns_init m D P types values t0 n0 U0 p0 = Ok (O, s0) ->
  exact_solver (n_velocity m) (o_A O) vs -> exact_solver (n_pressure m) (o_DBNG O) ps ->
  ns_steps m D P O conv vs ps k s0 = Ok s -> advance m D P O conv vs ps s = Ok s2 ->
  stored_energy (n_pressure m) m D P O s2 <= stored_energy (n_pressure m) m D P O s /\
  kinetic m D (s_U s2) <= kinetic m D U0 + p_dt P * p_dt P * kinetic m D (mvec (n_pressure m) (o_G O) p0).
Proof.
  intros m D P types values t0 n0 U0 p0 O s0 conv vs ps k s s2 Hs Hb Hm Hn Hu Hbn Hdt Hc Hce Hde HI Hv Hp Hk Ha. split.
  - eapply ns_decay; eassumption.
  - assert (Hk2 : ns_steps m D P O conv vs ps (S k) s0 = Ok s2) by (cbn [ns_steps]; rewrite Hk; exact Ha).
    pose proof (ns_decays m D P types values t0 n0 U0 p0 O s0 Hs Hb Hm Hn Hu Hbn Hdt Hc HI Hce Hde conv vs ps Hv Hp (S k) s2 Hk2) as X.
    pose proof (stored_bound (n_pressure m) m D P O s2 Hs) as Y.
    destruct (ns_init_inv _ _ _ _ _ _ _ _ _ _ _ (setup_facts _ _ Hs) Hb HI) as (B & _ & _ & ->). unfold stored_energy in X at 2. cbn [s_U s_p] in X. lra.
Qed.
Print Assumptions stokes_energy_never_increases.

(** C70. The same for the immersed-boundary solver that solves for the pressure
    and the forces together: the bodies at rest do no work either. *)
Theorem coupled_energy_budget : forall m D P types values name bodies t0 n0 U0 p0 O s0 conv vs ps k s s2,
  mesh_setup m D -> bc_fits m types -> bodies_ok m D bodies -> periodic_min m 3 -> no_normal_neumann m types -> undriven m types values ->
  p_bn P = 1%Z -> 0 < p_dt P -> 0 <= p_dimp P * p_nu P ->
  ib_init m D P types values name bodies t0 n0 U0 p0 = Ok (O, s0) ->
  exact_solver (n_velocity m) (o_A (ib_ns O)) vs -> exact_solver (ib_n O) (o_DBNG (ib_ns O)) ps ->
  run_steps (ib_advance m D P O conv vs ps) k s0 = Ok s -> ib_advance m D P O conv vs ps s = Ok s2 ->
  (forall r, (0 <= r < ib_n O)%Z -> mvec (n_velocity m) (ib_D O) (s_U s2) r = 0) /\
  exists rhs1 s1, rhs_velocity (ib_n O) m D P (ib_ns O) conv (begun P s) = Ok (rhs1, s1) /\
    let u1 := vs (s_U s) rhs1 in
    stored_energy (ib_n O) m D P (ib_ns O) s2 = stored_energy (ib_n O) m D P (ib_ns O) s - kinetic m D (fun i => u1 i - s_U s i)
      + p_dt P * (p_dimp P * p_nu P * inner m D u1 (mvec (n_velocity m) (entry (op_log (o_L (ib_ns O)))) u1)
                  + inner m D u1 (fun i => weighted (p_cexp P) (s_conv s2) i + weighted (p_dexp P) (s_diff s2) i)).
Proof. intros. eapply ib_budget; eassumption. Qed.
Print Assumptions coupled_energy_budget.

Theorem coupled_energy_never_increases : forall m D P types values name bodies t0 n0 U0 p0 O s0 conv vs ps k s s2,
  mesh_setup m D -> bc_fits m types -> bodies_ok m D bodies -> periodic_min m 3 -> no_normal_neumann m types -> undriven m types values ->
  p_bn P = 1%Z -> 0 < p_dt P -> 0 <= p_dimp P * p_nu P -> p_cexp P = [] -> p_dexp P = [] ->
  ib_init m D P types values name bodies t0 n0 U0 p0 = Ok (O, s0) ->
  exact_solver (n_velocity m) (o_A (ib_ns O)) vs -> exact_solver (ib_n O) (o_DBNG (ib_ns O)) ps ->
  run_steps (ib_advance m D P O conv vs ps) k s0 = Ok s -> ib_advance m D P O conv vs ps s = Ok s2 ->
  stored_energy (ib_n O) m D P (ib_ns O) s2 <= stored_energy (ib_n O) m D P (ib_ns O) s /\
  kinetic m D (s_U s2) <= kinetic m D U0.
Proof.
  intros m D P types values name bodies t0 n0 U0 p0 O s0 conv vs ps k s s2 Hs Hb Hbo Hm Hn Hu Hbn Hdt Hc Hce Hde HI Hv Hp Hk Ha. split.
  - eapply ib_decay; eassumption.
  - assert (Hk2 : run_steps (ib_advance m D P O conv vs ps) (S k) s0 = Ok s2) by (cbn [run_steps]; rewrite Hk; exact Ha).
    pose proof (ib_decays m D P types values name bodies t0 n0 U0 p0 O s0 Hs Hb Hbo Hm Hn Hu Hbn Hdt Hc HI Hce Hde conv vs ps Hv Hp (S k) s2 Hk2) as X.
    destruct (ib_init_inv m D P types values name bodies Hs Hb _ _ _ _ _ _ HI) as (B & _ & _ & ->). exact X.
Qed.
Print Assumptions coupled_energy_never_increases.

(** * The hypotheses can be met *)
Lemma box_min per : periodic_min (ex_mesh per per) 3.
Proof.
  destruct per; [apply ex_per_min; lia|]. intros f d Hf Hd Hp. exfalso. rewrite ex_dim in Hd. assert (d = 0 \/ d = 1)%Z as [->| ->] by lia; vm_compute in Hp; discriminate.
Qed.
(** A box with walls at rest or a periodic box, pinned or not: every number of
    steps of the Stokes equations, with exact solvers. *)
Example stokes_case : forall (per refp : bool) U0 p0 k,
  let m := ex_mesh per per in let D := ex_dec per per in let P := mkPar (1/100) 1 1 [] 1 [] refp in
  exists O s0 vs ps s s2, mesh_setup m D /\ bc_fits m (box_types per) /\ periodic_min m 3 /\ no_normal_neumann m (box_types per) /\
    undriven m (box_types per) (fun _ _ => 0) /\ p_bn P = 1%Z /\ 0 < p_dt P /\ 0 <= p_dimp P * p_nu P /\
    ns_init m D P (box_types per) (fun _ _ => 0) 0 0 U0 p0 = Ok (O, s0) /\
    exact_solver (n_velocity m) (o_A O) vs /\ exact_solver (n_pressure m) (o_DBNG O) ps /\
    ns_steps m D P O (fun _ x => Ok x) vs ps k s0 = Ok s /\ advance m D P O (fun _ x => Ok x) vs ps s = Ok s2.
Proof.
  intros per refp U0 p0 k m D P. pose proof (ex_setup per per) as Hs. pose proof (setup_facts _ _ Hs) as F.
  destruct (init_total m D P (box_types per) (fun _ _ => 0) 0 0 U0 p0 F (box_fits per) ltac:(cbn; lia)) as (O & s0 & HI).
  destruct (exact_exists (n_velocity m) (o_A O) (nv_nonneg m D Hs)) as (vs & Hv).
  destruct (exact_exists (n_pressure m) (o_DBNG O) ltac:(pose proof (np_pos m D Hs); lia)) as (ps & Hp).
  destruct (steps_total m D P (box_types per) (fun _ _ => 0) F (box_fits per) (fun _ x => Ok x) vs ps 0 0%Z U0 p0 O s0 (S k) HI ltac:(intros; eexists; reflexivity)) as (s2 & H2).
  cbn [ns_steps] in H2. apply bind_ok_inv in H2. destruct H2 as (s & Hk & Ha).
  exists O, s0, vs, ps, s, s2. split; [exact Hs|]. split; [apply box_fits|]. split; [apply box_min|].
  split. { intros f Hf. unfold box_types. destruct per; split; discriminate. }
  split. { intros f loc Hf Hl. unfold box_types. split; [destruct per; discriminate|reflexivity]. }
  split; [reflexivity|]. split; [cbn; lra|]. split; [cbn; lra|]. auto.
Qed.
(** Two points of a body in a closed box. *)
Example coupled_stokes_case : forall (refp : bool) name K w U0 p0 k, getKernel name = Ok (K, w) ->
  let m := un_mesh false false in let D := un_dec false false in let bodies := pair [4; 4] [13 / 4; 9 / 2] in let P := mkPar (1/100) 1 1 [] 1 [] refp in
  exists O s0 vs ps s s2, mesh_setup m D /\ bc_fits m (un_types false false) /\ bodies_ok m D bodies /\ periodic_min m 3 /\ no_normal_neumann m (un_types false false) /\
    undriven m (un_types false false) (fun _ _ => 0) /\ p_bn P = 1%Z /\ 0 < p_dt P /\ 0 <= p_dimp P * p_nu P /\
    ib_init m D P (un_types false false) (fun _ _ => 0) name bodies 0 0 U0 p0 = Ok (O, s0) /\
    exact_solver (n_velocity m) (o_A (ib_ns O)) vs /\ exact_solver (ib_n O) (o_DBNG (ib_ns O)) ps /\
    run_steps (ib_advance m D P O (fun _ x => Ok x) vs ps) k s0 = Ok s /\ ib_advance m D P O (fun _ x => Ok x) vs ps s = Ok s2 /\
    (n_pressure m < ib_n O)%Z.
Proof.
  intros refp name K w U0 p0 k HK m D bodies P.
  pose proof (un_setup false false) as Hs. pose proof (un_fits false false) as Hb. pose proof (setup_facts _ _ Hs) as F.
  pose proof (pair_ok false false [4; 4] [13 / 4; 9 / 2] eq_refl eq_refl) as Hbo.
  assert (W : (w <= 3)%Z) by (destruct (getKernel_cases _ _ _ HK) as [(_ & _ & -> & _)|(_ & _ & -> & _)]; lia).
  assert (T : forall vs ps, exists O s0 s, ib_init m D P (un_types false false) (fun _ _ => 0) name bodies 0 0 U0 p0 = Ok (O, s0) /\
     run_steps (ib_advance m D P O (fun _ x => Ok x) vs ps) (S k) s0 = Ok s).
  { intros vs ps. apply (coupled_never_fails m D P (un_types false false) (fun _ _ => 0) name bodies K w (fun _ x => Ok x) vs ps 0 0 U0 p0 (S k) Hs Hb Hbo HK).
    - cbn. lia.
    - intros b i X Hl. apply pair_located in Hl. destruct Hl as (_ & [(_ & ->)|(_ & ->)]); apply un_reach; auto; lra.
    - apply pair_ranks.
    - intros. eexists. reflexivity. }
  destruct (T (fun _ _ _ => 0) (fun _ _ _ => 0)) as (O & s0 & _ & HI & _).
  destruct (ib_init_inv _ _ _ _ _ _ _ Hs Hb _ _ _ _ _ _ HI) as (B0 & HB0 & EO & _).
  destruct (ib_createOperators_inv _ _ _ _ _ _ _ EO) as (d & g & l & E & H & BN & _ & _ & _ & _ & _ & EOps).
  assert (En : ib_n O = (n_pressure m + n_forces m bodies)%Z) by (rewrite EOps; reflexivity).
  assert (Hf : n_forces m bodies = 4%Z) by (vm_compute; reflexivity).
  destruct (exact_exists (n_velocity m) (o_A (ib_ns O)) (nv_nonneg m D Hs)) as (vs & Hv).
  destruct (exact_exists (ib_n O) (o_DBNG (ib_ns O)) ltac:(pose proof (np_pos m D Hs); lia)) as (ps & Hp).
  destruct (T vs ps) as (O' & s0' & s2 & HI' & H2). rewrite HI in HI'. injection HI' as <- <-.
  cbn [run_steps] in H2. apply bind_ok_inv in H2. destruct H2 as (s & Hk & Ha).
  exists O, s0, vs, ps, s, s2. split; [exact Hs|]. split; [exact Hb|]. split; [exact Hbo|].
  split. { apply un_min. lia. }
  split. { intros f Hf'. unfold un_types. assert (f = 0 \/ f = 1)%Z as [->| ->] by (unfold m in Hf'; rewrite un_dim in Hf'; lia); split; vm_compute; discriminate. }
  split. { intros f loc Hf' Hl. unfold un_types. split; [destruct (loc <? 2)%Z; discriminate|reflexivity]. }
  split; [reflexivity|]. split; [cbn; lra|]. split; [cbn; lra|]. split; [exact HI|]. split; [exact Hv|]. split; [exact Hp|]. split; [exact Hk|]. split; [exact Ha|]. lia.
Qed.
