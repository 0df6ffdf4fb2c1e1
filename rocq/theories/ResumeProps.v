(** C39 and C67: runs resumed with other linear solvers, or on another process
    grid. *)
From Coq Require Import ZifyBool String.
From Verif Require Import Prelude ZSum RSum TypesModel GridModel GridSpec GridProof MeshProof IndexModel IndexSpec IndexProof
  BoundaryModel BoundarySpec BoundaryProof OperatorModel OperatorSpec OperatorProof BStateProof
  MatModel BnModel NSModel NSSpec NSProof NSPin NSTotal GradProof ConvModel ConvSpec ConvProof ConvTotal ConvProps ConvRespect NameModel DriverModel DriverSpec DriverProof DriveProof RestartProof RunProof DriverProps
  LinModel LinProof UniqueProof UniqueProps ExampleSetup SimProps DecSpec DecProof DecConv DecProps ResumeSpec ResumeProof.
Local Open Scope R_scope.

Lemma resume_lemma m D1 D2 P types values t0 U1 U2 q1 q2 vs1 ps1 vs2 ps2 monA mon1 mon2 confA conf1 conf2 fuelA fuel1 fuel2 d sA dA trA s1' d1 tr1 k j :
  mesh_setup m D1 -> mesh_setup m D2 -> bc_fits m types -> periodic_min m 3 -> no_normal_neumann m types -> no_convective m types ->
  conv_agree m D1 D2 types values (convection m D1) (convection m D2) ->
  0 <= p_dimp P * p_nu P -> 0 < p_dt P -> p_bn P = 1%Z -> (D1 = D2 \/ one_level P) ->
  same_velocity m D1 D2 U1 U2 -> same_pressure D1 D2 q1 q2 ->
  c_out confA = c_out conf1 -> c_out conf2 = c_out conf1 -> c_nstart confA = c_nstart conf1 -> (0 <= c_nstart conf1)%Z ->
  probes_elsewhere (c_out conf1) mon1 ->
  c_nt conf1 = Z.of_nat k -> (1 <= k)%nat -> c_nt confA = Z.of_nat (k + j) ->
  c_nstart conf2 = (c_nstart conf1 + Z.of_nat k)%Z -> c_nt conf2 = Z.of_nat j ->
  exact_program confA m D1 P types values t0 U1 q1 vs1 ps1 d (k + j) -> exact_program conf2 m D2 P types values t0 U2 q2 vs2 ps2 d1 j ->
  ns_main fuelA confA m D1 P types values t0 U1 q1 monA (convection m D1) vs1 ps1 d = Ok (Some (sA, dA, trA)) ->
  ns_main fuel1 conf1 m D1 P types values t0 U1 q1 mon1 (convection m D1) vs1 ps1 d = Ok (Some (s1', d1, tr1)) ->
  (c_nrestart conf1 | c_nstart conf2)%Z ->
  (c_nsave conf1 | c_nstart conf2)%Z \/ d (solution_path (c_out conf1) (c_nstart conf2)) = None ->
  c_nsave conf2 <> 0%Z -> c_nrestart conf2 <> 0%Z -> (j <= fuel2)%nat ->
  exists sB dB trB, ns_main fuel2 conf2 m D2 P types values t0 U2 q2 mon2 (convection m D2) vs2 ps2 d1 = Ok (Some (sB, dB, trB)) /\
    same_flow m D1 D2 (p_refp P) sA sB /\ (D1 = D2 -> same_state m D1 D2 (p_refp P) sA sB).
Proof.
  intros Hs1 Hs2 Hb Hmin Hnn Hnc Hcv Hc Hdt Hbn Hor HU Hq HoA Ho2 HnA H0 Hpr Hk Hk1 HkA Hn2 Hj XA XB HA H1 Hr Hs Hsv Hrs Hfu.
  destruct (main_inv _ _ _ _ _ _ _ _ _ _ _ _ _ _ _ _ _ _ H1) as (ops & s0 & s1 & w & tr' & E1 & E2 & _ & _ & Ei & _).
  assert (Hst : started conf1 m D1 P types values t0 U1 q1 d ops s1) by (exists s0, w; auto).
  assert (HstA : started confA m D1 P types values t0 U1 q1 d ops s1).
  { exists s0. destruct (main_inv _ _ _ _ _ _ _ _ _ _ _ _ _ _ _ _ _ _ HA) as (opsA & s0A & s1A & wA & trA' & X1 & X2 & _).
    exists wA. rewrite HnA in X1. rewrite E1 in X1. injection X1 as <- <-. rewrite HnA. split; [exact E1|].
    unfold io_initial in *. unfold init_ops in *. rewrite HoA, HnA in *. rewrite X2. f_equal. f_equal.
    destruct (s_ite s0 =? 0)%Z; [injection X2 as <- <-; injection E2 as <- <-; reflexivity|]. rewrite E2 in X2. injection X2 as <- <-. reflexivity. }
  destruct (run_length_lemma m D1 P types values t0 U1 q1 (convection m D1) vs1 ps1 conf1 mon1 fuel1 d s1' d1 tr1 ops s1 Hst H1) as (Hi & Hks & Hi1 & _).
  destruct (run_length_lemma m D1 P types values t0 U1 q1 (convection m D1) vs1 ps1 confA monA fuelA d sA dA trA ops s1 HstA HA) as (_ & HkAs & _).
  rewrite Hk, Nat2Z.id in Hks. rewrite HkA, Nat2Z.id in HkAs.
  assert (Hz : c_nsave conf1 <> 0%Z /\ c_nrestart conf1 <> 0%Z).
  { destruct (main_inv _ _ _ _ _ _ _ _ _ _ _ _ _ _ _ _ _ _ H1) as (o' & s0' & s1'' & w' & tr'' & _ & _ & X3 & _ & X5 & _).
    assert (T : (1 <= todo conf1 s1'')%nat) by (unfold todo; rewrite X5; lia).
    destruct (trace_nth _ _ _ _ _ _ _ _ _ _ _ _ _ _ _ 1%nat X3 ltac:(lia)) as (ta & o1 & tb & Et & _).
    destruct (drive_split _ _ _ _ _ _ _ _ _ _ _ _ _ _ _ X3 _ _ _ _ Et) as (sj & _ & _ & Ew). destruct (write_step_inv _ _ _ _ _ _ _ Ew) as (Z1 & Z2 & _). auto. }
  destruct (run_files_lemma m D1 P types values t0 U1 q1 (convection m D1) vs1 ps1 conf1 mon1 fuel1 d s1' d1 tr1 ops s1 Hs1 Hst H1 Hpr H0 (proj1 Hz) (proj2 Hz)) as (A & _).
  destruct (A k s1' ltac:(lia) Hks) as (A1 & _). rewrite Hn2 in Hr, Hs.
  destruct A1 as (Fl & EF & HS & HH); [destruct Hs as [Hs|Hs]; auto|].
  destruct (start_fresh m D1 P types values t0 U1 q1 (setup_facts _ _ Hs1) Hb conf1 ops s0 _ s1 w E1 E2) as (Hf & Lc & Ld).
  assert (Es : s_ite s1' = (c_nstart conf1 + Z.of_nat k)%Z) by lia.
  eapply (resume_from_file m D1 D2 P types values t0 U1 U2 q1 q2 vs1 ps1 vs2 ps2 Hs1 Hs2 Hb Hmin Hnn Hnc Hc Hdt Hbn HU Hq Hcv ops s0 s1 k s1' j sA conf2 fuel2 mon2 d1 Fl _ E1 Hf Lc Ld Hks HkAs); auto; try lia.
  rewrite Es, Ho2. exact EF.
Qed.

Lemma resume_two_lemma m D1 D2 P types values t0 U1 U2 q1 q2 vs1 ps1 vs2 ps2 monA mon1 mon2 confA conf1 conf2 fuelA fuel1 fuel2 d sA dA trA s1' d1 tr1 k ca cb c0 c1 :
  mesh_setup m D1 -> mesh_setup m D2 -> bc_fits m types -> periodic_min m 3 -> no_normal_neumann m types -> no_convective m types ->
  conv_agree m D1 D2 types values (convection m D1) (convection m D2) ->
  0 <= p_dimp P * p_nu P -> 0 < p_dt P -> p_bn P = 1%Z -> p_cexp P = [ca; cb] -> cb <> 0 -> (lenZ (p_dexp P) <= 1)%Z -> s_conv s1' = [c0; c1] ->
  same_velocity m D1 D2 U1 U2 -> same_pressure D1 D2 q1 q2 ->
  c_out confA = c_out conf1 -> c_out conf2 = c_out conf1 -> c_nstart confA = c_nstart conf1 -> (0 <= c_nstart conf1)%Z ->
  probes_elsewhere (c_out conf1) mon1 ->
  c_nt conf1 = Z.of_nat k -> (1 <= k)%nat -> c_nt confA = Z.of_nat (k + 1) ->
  c_nstart conf2 = (c_nstart conf1 + Z.of_nat k)%Z -> c_nt conf2 = 1%Z ->
  exact_program confA m D1 P types values t0 U1 q1 vs1 ps1 d (k + 1) -> exact_program conf2 m D2 P types values t0 U2 q2 vs2 ps2 d1 1 ->
  ns_main fuelA confA m D1 P types values t0 U1 q1 monA (convection m D1) vs1 ps1 d = Ok (Some (sA, dA, trA)) ->
  ns_main fuel1 conf1 m D1 P types values t0 U1 q1 mon1 (convection m D1) vs1 ps1 d = Ok (Some (s1', d1, tr1)) ->
  (c_nrestart conf1 | c_nstart conf2)%Z ->
  (c_nsave conf1 | c_nstart conf2)%Z \/ d (solution_path (c_out conf1) (c_nstart conf2)) = None ->
  c_nsave conf2 <> 0%Z -> c_nrestart conf2 <> 0%Z -> (1 <= fuel2)%nat ->
  exists sB dB trB, ns_main fuel2 conf2 m D2 P types values t0 U2 q2 mon2 (convection m D2) vs2 ps2 d1 = Ok (Some (sB, dB, trB)) /\
    (same_flow m D1 D2 (p_refp P) sA sB -> forall i1 i2 f p, nthZ (packed_layout (m_dim m) D1) i1 = Some (f, p) -> nthZ (packed_layout (m_dim m) D2) i2 = Some (f, p) -> c0 i1 = c0 i2).
Proof.
  intros Hs1 Hs2 Hb Hmin Hnn Hnc Hcv Hc Hdt Hbn Hca Hcb Hdx Hc0 HU Hq HoA Ho2 HnA H0 Hpr Hk Hk1 HkA Hn2 Hj XA XB HA H1 Hr Hs Hsv Hrs Hfu.
  destruct (main_inv _ _ _ _ _ _ _ _ _ _ _ _ _ _ _ _ _ _ H1) as (ops & s0 & s1 & w & tr' & E1 & E2 & _ & _ & Ei & _).
  assert (Hst : started conf1 m D1 P types values t0 U1 q1 d ops s1) by (exists s0, w; auto).
  assert (HstA : started confA m D1 P types values t0 U1 q1 d ops s1).
  { exists s0. destruct (main_inv _ _ _ _ _ _ _ _ _ _ _ _ _ _ _ _ _ _ HA) as (opsA & s0A & s1A & wA & trA' & X1 & X2 & _).
    exists wA. rewrite HnA in X1. rewrite E1 in X1. injection X1 as <- <-. rewrite HnA. split; [exact E1|].
    unfold io_initial in *. unfold init_ops in *. rewrite HoA, HnA in *. rewrite X2. f_equal. f_equal.
    destruct (s_ite s0 =? 0)%Z; [injection X2 as <- <-; injection E2 as <- <-; reflexivity|]. rewrite E2 in X2. injection X2 as <- <-. reflexivity. }
  destruct (run_length_lemma m D1 P types values t0 U1 q1 (convection m D1) vs1 ps1 conf1 mon1 fuel1 d s1' d1 tr1 ops s1 Hst H1) as (Hi & Hks & Hi1 & _).
  destruct (run_length_lemma m D1 P types values t0 U1 q1 (convection m D1) vs1 ps1 confA monA fuelA d sA dA trA ops s1 HstA HA) as (_ & HkAs & _).
  rewrite Hk, Nat2Z.id in Hks. rewrite HkA, Nat2Z.id in HkAs.
  assert (Hz : c_nsave conf1 <> 0%Z /\ c_nrestart conf1 <> 0%Z).
  { destruct (main_inv _ _ _ _ _ _ _ _ _ _ _ _ _ _ _ _ _ _ H1) as (o' & s0' & s1'' & w' & tr'' & _ & _ & X3 & _ & X5 & _).
    assert (T : (1 <= todo conf1 s1'')%nat) by (unfold todo; rewrite X5; lia).
    destruct (trace_nth _ _ _ _ _ _ _ _ _ _ _ _ _ _ _ 1%nat X3 ltac:(lia)) as (ta & o1 & tb & Et & _).
    destruct (drive_split _ _ _ _ _ _ _ _ _ _ _ _ _ _ _ X3 _ _ _ _ Et) as (sj & _ & _ & Ew). destruct (write_step_inv _ _ _ _ _ _ _ Ew) as (Z1 & Z2 & _). auto. }
  destruct (run_files_lemma m D1 P types values t0 U1 q1 (convection m D1) vs1 ps1 conf1 mon1 fuel1 d s1' d1 tr1 ops s1 Hs1 Hst H1 Hpr H0 (proj1 Hz) (proj2 Hz)) as (A & _).
  destruct (A k s1' ltac:(lia) Hks) as (A1 & _). rewrite Hn2 in Hr, Hs.
  destruct A1 as (Fl & EF & HS & HH); [destruct Hs as [Hs|Hs]; auto|].
  destruct (start_fresh m D1 P types values t0 U1 q1 (setup_facts _ _ Hs1) Hb conf1 ops s0 _ s1 w E1 E2) as (Hf & Lc & Ld).
  assert (Es : s_ite s1' = (c_nstart conf1 + Z.of_nat k)%Z) by lia.
  eapply (resume_two m D1 D2 P types values t0 U1 U2 q1 q2 vs1 ps1 vs2 ps2 Hs1 Hs2 Hb Hmin Hnn Hnc Hbn HU Hcv ops s0 s1 k s1' sA conf2 fuel2 mon2 d1 Fl _ ca cb c0 c1 E1 Hf Lc Ld Hks HkAs); auto; try lia.
  rewrite Es, Ho2. exact EF.
Qed.

(** C39. Resuming with any linear solvers that return solutions. As
    [restart_equivalent], but the solvers may depend on their initial guesses,
    and the resumed run may use other solvers (with the built-in convection, no
    Neumann condition on a normal velocity, and a one-term approximation of the
    inverse): the resumed run ends with the time, step, velocity, explicit terms
    and pressure of the uninterrupted run; without a reference pressure, the
    pressure up to a constant. *)
Theorem restart_exact_solvers : forall m D P types values t0 U0 p0 vs ps vs2 ps2 monA mon1 mon2 confA conf1 conf2 fuelA fuel1 fuel2 d sA dA trA s1' d1 tr1 k j,
  mesh_setup m D -> bc_fits m types -> periodic_min m 3 -> no_normal_neumann m types -> no_convective m types ->
  0 <= p_dimp P * p_nu P -> 0 < p_dt P -> p_bn P = 1%Z ->
  c_out confA = c_out conf1 -> c_out conf2 = c_out conf1 -> c_nstart confA = c_nstart conf1 -> (0 <= c_nstart conf1)%Z ->
  probes_elsewhere (c_out conf1) mon1 ->
  c_nt conf1 = Z.of_nat k -> (1 <= k)%nat -> c_nt confA = Z.of_nat (k + j) ->
  c_nstart conf2 = (c_nstart conf1 + Z.of_nat k)%Z -> c_nt conf2 = Z.of_nat j ->
  exact_program confA m D P types values t0 U0 p0 vs ps d (k + j) -> exact_program conf2 m D P types values t0 U0 p0 vs2 ps2 d1 j ->
  ns_main fuelA confA m D P types values t0 U0 p0 monA (convection m D) vs ps d = Ok (Some (sA, dA, trA)) ->
  ns_main fuel1 conf1 m D P types values t0 U0 p0 mon1 (convection m D) vs ps d = Ok (Some (s1', d1, tr1)) ->
  (c_nrestart conf1 | c_nstart conf2)%Z ->
  (c_nsave conf1 | c_nstart conf2)%Z \/ d (solution_path (c_out conf1) (c_nstart conf2)) = None ->
  c_nsave conf2 <> 0%Z -> c_nrestart conf2 <> 0%Z -> (j <= fuel2)%nat ->
  exists sB dB trB, ns_main fuel2 conf2 m D P types values t0 U0 p0 mon2 (convection m D) vs2 ps2 d1 = Ok (Some (sB, dB, trB)) /\
    same_state m D D (p_refp P) sA sB.
Proof.
  intros m D P types values t0 U0 p0 vs ps vs2 ps2 monA mon1 mon2 confA conf1 conf2 fuelA fuel1 fuel2 d sA dA trA s1' d1 tr1 k j
    Hs Hb Hmin Hnn Hnc Hc Hdt Hbn HoA Ho2 HnA H0 Hpr Hk Hk1 HkA Hn2 Hj XA XB HA H1 Hr Hsd Hsv Hrs Hfu.
  destruct (resume_lemma m D D P types values t0 U0 U0 p0 p0 vs ps vs2 ps2 monA mon1 mon2 confA conf1 conf2 fuelA fuel1 fuel2 d sA dA trA s1' d1 tr1 k j)
    as (sB & dB & trB & EB & _ & HB); auto.
  - now apply conv_agree_same.
  - apply (vv_same m D D Hs Hs). intros ? _. reflexivity.
  - apply (pp_same m D D Hs Hs). intros ? _. reflexivity.
  - exists sB, dB, trB. auto.
Qed.
Print Assumptions restart_exact_solvers.

(** C67. Resuming on another process grid. Runs A and 1 are on the grid D1; the
    resumed run is on the grid D2, from the files run 1 left. The initial fields
    of the configuration are the same fields on both grids. Schemes with at most
    one explicit term of each kind, nothing flowing through the boundaries that
    are not periodic, and solvers that return solutions: the resumed run
    completes and ends with the time, step, velocity and pressure of the
    uninterrupted run. *)
Theorem restart_other_grid : forall m D1 D2 P types values t0 U1 U2 q1 q2 vs1 ps1 vs2 ps2 monA mon1 mon2 confA conf1 conf2 fuelA fuel1 fuel2 d sA dA trA s1' d1 tr1 k j,
  mesh_setup m D1 -> mesh_setup m D2 -> bc_fits m types -> periodic_min m 3 -> impermeable m types values -> no_convective m types ->
  0 <= p_dimp P * p_nu P -> 0 < p_dt P -> p_bn P = 1%Z -> one_level P ->
  same_velocity m D1 D2 U1 U2 -> same_pressure D1 D2 q1 q2 ->
  c_out confA = c_out conf1 -> c_out conf2 = c_out conf1 -> c_nstart confA = c_nstart conf1 -> (0 <= c_nstart conf1)%Z ->
  probes_elsewhere (c_out conf1) mon1 ->
  c_nt conf1 = Z.of_nat k -> (1 <= k)%nat -> c_nt confA = Z.of_nat (k + j) ->
  c_nstart conf2 = (c_nstart conf1 + Z.of_nat k)%Z -> c_nt conf2 = Z.of_nat j ->
  exact_program confA m D1 P types values t0 U1 q1 vs1 ps1 d (k + j) -> exact_program conf2 m D2 P types values t0 U2 q2 vs2 ps2 d1 j ->
  ns_main fuelA confA m D1 P types values t0 U1 q1 monA (convection m D1) vs1 ps1 d = Ok (Some (sA, dA, trA)) ->
  ns_main fuel1 conf1 m D1 P types values t0 U1 q1 mon1 (convection m D1) vs1 ps1 d = Ok (Some (s1', d1, tr1)) ->
  (c_nrestart conf1 | c_nstart conf2)%Z ->
  (c_nsave conf1 | c_nstart conf2)%Z \/ d (solution_path (c_out conf1) (c_nstart conf2)) = None ->
  c_nsave conf2 <> 0%Z -> c_nrestart conf2 <> 0%Z -> (j <= fuel2)%nat ->
  exists sB dB trB, ns_main fuel2 conf2 m D2 P types values t0 U2 q2 mon2 (convection m D2) vs2 ps2 d1 = Ok (Some (sB, dB, trB)) /\
    same_flow m D1 D2 (p_refp P) sA sB.
Proof.
  intros m D1 D2 P types values t0 U1 U2 q1 q2 vs1 ps1 vs2 ps2 monA mon1 mon2 confA conf1 conf2 fuelA fuel1 fuel2 d sA dA trA s1' d1 tr1 k j
    Hs1 Hs2 Hb Hmin Hi Hnc Hc Hdt Hbn Hone HU Hq HoA Ho2 HnA H0 Hpr Hk Hk1 HkA Hn2 Hj XA XB HA H1 Hr Hsd Hsv Hrs Hfu.
  destruct (resume_lemma m D1 D2 P types values t0 U1 U2 q1 q2 vs1 ps1 vs2 ps2 monA mon1 mon2 confA conf1 conf2 fuelA fuel1 fuel2 d sA dA trA s1' d1 tr1 k j)
    as (sB & dB & trB & EB & HB & _); auto.
  - now apply (impermeable_neumann m types values).
  - now apply conv_agree_impermeable.
  - exists sB, dB, trB. auto.
Qed.
Print Assumptions restart_other_grid.

(** C67. What a restart file does to the explicit terms. The velocity and the
    pressure keep their points; the explicit terms keep their places in the
    distributed vector: what D1 held at the point (f, p) is read by D2 at the
    point (g, q) that has the same place on D2. *)
Theorem restart_moves_terms : forall m D1 D2 types values path d Fl s s0 h0 s',
  mesh_setup m D1 -> mesh_setup m D2 -> bc_fits m types -> d path = Some Fl -> holds_solution m D1 s Fl -> holds_history m s Fl ->
  lenZ (s_conv s0) = lenZ (s_conv s) -> lenZ (s_diff s0) = lenZ (s_diff s) -> s_ite s0 = s_ite s -> boundary_after m D2 types values h0 (s_bc s0) ->
  read_restart m D2 path d s0 = Ok s' ->
  same_velocity m D1 D2 (s_U s) (s_U s') /\ same_pressure D1 D2 (s_p s) (s_p s') /\
  forall l c c' i f p g q, nthZ (s_conv s) l = Some c -> nthZ (s_conv s') l = Some c' ->
    nthZ (packed_layout (m_dim m) D1) i = Some (f, p) -> nthZ (packed_layout (m_dim m) D2) i = Some (g, q) -> c' i = c i.
Proof.
  intros m D1 D2 types values path d Fl s s0 h0 s' Hs1 Hs2 Hb E HS HH Lc Ld Hi HB ER.
  destruct (read_other m D1 D2 types values path d Fl s s0 h0 (setup_facts _ _ Hs1) (setup_facts _ _ Hs2) Hb E HS HH Lc Ld Hi HB) as (b & ER' & _ & _ & SU & Sp & Sc & _).
  rewrite ER in ER'. injection ER' as <-. split; [exact SU|]. split; [exact Sp|].
  intros l c c' i f p g q Hc Hc' H1 _. destruct (Forall2_nthZ _ _ _ _ _ Sc Hc) as (c2 & Hc2 & Hv). rewrite Hc' in Hc2. injection Hc2 as <-. symmetry. apply Hv. now apply (layout_range m D1 i (f, p) (setup_facts _ _ Hs1)).
Qed.
Print Assumptions restart_moves_terms.

(** C67. With a two-level scheme (second-order Adams-Bashforth convection) the
    resumed run does not continue the flow in general: if its first step gives
    the flow of the uninterrupted run, then the newest explicit convection term
    c of the file has the same value at any two points that share a place on the
    two grids. *)
Theorem restart_two_levels : forall m D1 D2 P types values t0 U1 U2 q1 q2 vs1 ps1 vs2 ps2 monA mon1 mon2 confA conf1 conf2 fuelA fuel1 fuel2 d sA dA trA s1' d1 tr1 k a b,
  mesh_setup m D1 -> mesh_setup m D2 -> bc_fits m types -> periodic_min m 3 -> impermeable m types values -> no_convective m types ->
  0 <= p_dimp P * p_nu P -> 0 < p_dt P -> p_bn P = 1%Z -> p_cexp P = [a; b] -> b <> 0 -> (lenZ (p_dexp P) <= 1)%Z ->
  same_velocity m D1 D2 U1 U2 -> same_pressure D1 D2 q1 q2 ->
  c_out confA = c_out conf1 -> c_out conf2 = c_out conf1 -> c_nstart confA = c_nstart conf1 -> (0 <= c_nstart conf1)%Z ->
  probes_elsewhere (c_out conf1) mon1 ->
  c_nt conf1 = Z.of_nat k -> (1 <= k)%nat -> c_nt confA = Z.of_nat (k + 1) ->
  c_nstart conf2 = (c_nstart conf1 + Z.of_nat k)%Z -> c_nt conf2 = 1%Z ->
  exact_program confA m D1 P types values t0 U1 q1 vs1 ps1 d (k + 1) -> exact_program conf2 m D2 P types values t0 U2 q2 vs2 ps2 d1 1 ->
  ns_main fuelA confA m D1 P types values t0 U1 q1 monA (convection m D1) vs1 ps1 d = Ok (Some (sA, dA, trA)) ->
  ns_main fuel1 conf1 m D1 P types values t0 U1 q1 mon1 (convection m D1) vs1 ps1 d = Ok (Some (s1', d1, tr1)) ->
  (c_nrestart conf1 | c_nstart conf2)%Z ->
  (c_nsave conf1 | c_nstart conf2)%Z \/ d (solution_path (c_out conf1) (c_nstart conf2)) = None ->
  c_nsave conf2 <> 0%Z -> c_nrestart conf2 <> 0%Z -> (1 <= fuel2)%nat ->
  exists sB dB trB, ns_main fuel2 conf2 m D2 P types values t0 U2 q2 mon2 (convection m D2) vs2 ps2 d1 = Ok (Some (sB, dB, trB)) /\
    (same_flow m D1 D2 (p_refp P) sA sB -> forall c i j f p g q, nthZ (s_conv s1') 0 = Some c ->
       nthZ (packed_layout (m_dim m) D1) i = Some (f, p) -> nthZ (packed_layout (m_dim m) D2) j = Some (f, p) ->
       nthZ (packed_layout (m_dim m) D1) j = Some (g, q) -> c i = c j).
Proof.
  intros m D1 D2 P types values t0 U1 U2 q1 q2 vs1 ps1 vs2 ps2 monA mon1 mon2 confA conf1 conf2 fuelA fuel1 fuel2 d sA dA trA s1' d1 tr1 k a b
    Hs1 Hs2 Hb Hmin Hi Hnc Hc Hdt Hbn Hca Hcb Hdx HU Hq HoA Ho2 HnA H0 Hpr Hk Hk1 HkA Hn2 Hj XA XB HA H1 Hr Hsd Hsv Hrs Hfu.
  assert (Q : exists c0 c1, s_conv s1' = [c0; c1]).
  { destruct (main_inv _ _ _ _ _ _ _ _ _ _ _ _ _ _ _ _ _ _ H1) as (ops & s0 & s1 & w & tr' & E1 & E2 & _).
    assert (Hst : started conf1 m D1 P types values t0 U1 q1 d ops s1) by (exists s0, w; auto).
    destruct (run_length_lemma m D1 P types values t0 U1 q1 (convection m D1) vs1 ps1 conf1 mon1 fuel1 d s1' d1 tr1 ops s1 Hst H1) as (_ & Hks & _).
    destruct (steps_slots m D1 P _ _ _ ops _ _ _ Hks) as [L _]. destruct (start_fresh m D1 P types values t0 U1 q1 (setup_facts _ _ Hs1) Hb conf1 ops s0 _ s1 w E1 E2) as (_ & Lc & _).
    destruct (ns_init_inv _ _ _ _ _ _ _ _ _ _ _ (setup_facts _ _ Hs1) Hb E1) as (B1 & _ & _ & E). rewrite Lc, E in L. cbn [s_conv] in L. rewrite lenZ_map, Hca in L.
    destruct (s_conv s1') as [|c0 [|c1 [|c2 t]]]; rewrite ?lenZ_cons in L; change (lenZ (@nil vec)) with 0%Z in L; change (lenZ (@nil R)) with 0%Z in L; try (pose proof (lenZ_nonneg t)); try lia. eauto. }
  destruct Q as (c0 & c1 & Ec).
  destruct (resume_two_lemma m D1 D2 P types values t0 U1 U2 q1 q2 vs1 ps1 vs2 ps2 monA mon1 mon2 confA conf1 conf2 fuelA fuel1 fuel2 d sA dA trA s1' d1 tr1 k a b c0 c1)
    as (sB & dB & trB & EB & HB); auto.
  - now apply (impermeable_neumann m types values).
  - now apply conv_agree_impermeable.
  - exists sB, dB, trB. split; [exact EB|]. intros Hsf c i j f p g q E L1 L2 _. rewrite Ec in E. injection E as <-. eapply HB; eauto.
Qed.
Print Assumptions restart_two_levels.

(** Linear solvers that return solutions in every step of every run exist. *)
Lemma exact_programs m D P types values t0 U0 p0 : mesh_setup m D -> bc_fits m types -> periodic_min m 3 -> no_normal_neumann m types ->
  0 <= p_dimp P * p_nu P -> 0 < p_dt P -> p_bn P = 1%Z -> p_refp P = true ->
  exists vs ps, forall conf d k, exact_program conf m D P types values t0 U0 p0 vs ps d k.
Proof.
  intros Hs Hb Hmin Hn Hc Hdt Hbn Hr.
  destruct (init_total m D P types values t0 0 U0 p0 (setup_facts _ _ Hs) Hb ltac:(lia)) as (ops & s0 & HI).
  destruct (solver_exists (n_velocity m) (o_A ops)) as [S1 H1].
  { apply (nv_nonneg m D Hs). }
  { intros b. destruct (momentum_system_unique m D P types values t0 0 U0 p0 ops s0 Hs Hb Hmin Hc Hdt HI b) as (x & Hx & _). eauto. }
  destruct (solver_exists (n_pressure m) (o_DBNG ops)) as [S2 H2].
  { pose proof (np_pos m D Hs). lia. }
  { intros b. destruct (pinned_poisson_solvable m D P types values t0 0 U0 p0 ops s0 Hs Hb ltac:(intros f d Hf Hd Hp; specialize (Hmin f d Hf Hd Hp); lia) Hn Hbn ltac:(lra) Hr HI b) as (x & Hx & _). eauto. }
  exists (fun _ => S1), (fun _ => S2). intros conf d k ops' s (s0' & w & EI & _).
  destruct (ns_init_step _ _ _ _ _ _ _ (c_nstart conf) _ _ _ _ HI) as [_ HI']. rewrite EI in HI'. injection HI' as -> _.
  intros j s1 _ _ rhs1 s2 rhs2 _ _. auto.
Qed.

(** The hypotheses are met: the lid-driven cavity with explicit Euler convection,
    runs of 5 and of 3 + 2 steps, the last two on two ranks instead of one. *)
Example resume_case : let m := ex_mesh false false in let D1 := one_dec false false in let D2 := ex_dec false false in
  let P := mkPar (1/100) 1 1 [1] (1/2) [1/2] true in let z := fun _ : Z => 0 in
  let confA := mkConf "o" "l" 0 5 1 3 in let conf1 := mkConf "o" "l" 0 3 1 3 in let conf2 := mkConf "o" "l" 3 2 1 3 in let mon := fun _ : nsstate => @nil fsop in
  exists vs1 ps1 vs2 ps2 sA dA trA s1' d1 tr1 sB dB trB,
  mesh_setup m D1 /\ mesh_setup m D2 /\ nranks D1 = 1%Z /\ nranks D2 = 2%Z /\ bc_fits m (box_types false) /\ periodic_min m 3 /\ impermeable m (box_types false) lid_values /\
  no_convective m (box_types false) /\ 0 <= p_dimp P * p_nu P /\ 0 < p_dt P /\ p_bn P = 1%Z /\ one_level P /\
  exact_program confA m D1 P (box_types false) lid_values 0 z z vs1 ps1 dsk0 (3 + 2) /\ exact_program conf2 m D2 P (box_types false) lid_values 0 z z vs2 ps2 d1 2 /\
  ns_main 5 confA m D1 P (box_types false) lid_values 0 z z mon (convection m D1) vs1 ps1 dsk0 = Ok (Some (sA, dA, trA)) /\
  ns_main 5 conf1 m D1 P (box_types false) lid_values 0 z z mon (convection m D1) vs1 ps1 dsk0 = Ok (Some (s1', d1, tr1)) /\
  ns_main 5 conf2 m D2 P (box_types false) lid_values 0 z z mon (convection m D2) vs2 ps2 d1 = Ok (Some (sB, dB, trB)) /\
  same_flow m D1 D2 true sA sB.
Proof.
  intros m D1 D2 P z confA conf1 conf2 mon. pose proof (one_setup false false) as Hs1. pose proof (ex_setup false false) as Hs2. pose proof (box_fits false) as Hb.
  assert (Hmin : periodic_min m 3).
  { intros f d Hf Hd Hp. exfalso. unfold m in Hp, Hd. rewrite ex_dim in Hd. assert (d = 0 \/ d = 1)%Z as [->| ->] by lia; vm_compute in Hp; discriminate. }
  assert (Hi : impermeable m (box_types false) lid_values).
  { intros f loc Hf Hl Hlf _. split; [reflexivity|]. unfold lid_values. unfold m in Hf. rewrite ex_dim in Hf.
    destruct (Z.eqb_spec f 0) as [->|N]; [|reflexivity]. destruct (Z.eqb_spec loc 3) as [->|N]; [discriminate|reflexivity]. }
  assert (Hnc : no_convective m (box_types false)) by (intros f loc _ _; discriminate).
  pose proof (impermeable_neumann m _ _ Hb Hi) as Hn.
  assert (Hc : 0 <= p_dimp P * p_nu P) by (cbn; lra). assert (Hdt : 0 < p_dt P) by (cbn; lra).
  assert (H1l : one_level P) by (split; unfold P, lenZ; cbn; lia).
  destruct (exact_programs m D1 P _ lid_values 0 z z Hs1 Hb Hmin Hn Hc Hdt eq_refl eq_refl) as (vs1 & ps1 & X1).
  destruct (exact_programs m D2 P _ lid_values 0 z z Hs2 Hb Hmin Hn Hc Hdt eq_refl eq_refl) as (vs2 & ps2 & X2).
  destruct (simulation_completes m D1 P (box_types false) lid_values 0 z z vs1 ps1 confA mon 5 dsk0 Hs1 Hb ltac:(cbn; lia) eq_refl ltac:(discriminate) ltac:(discriminate) ltac:(cbn; lia)) as (o1 & a1 & sA & dA & trA & _ & HA).
  destruct (simulation_completes m D1 P (box_types false) lid_values 0 z z vs1 ps1 conf1 mon 5 dsk0 Hs1 Hb ltac:(cbn; lia) eq_refl ltac:(discriminate) ltac:(discriminate) ltac:(cbn; lia)) as (o2 & a2 & s1' & d1 & tr1 & _ & H1).
  assert (He : probes_elsewhere (c_out conf1) mon) by (intros s o n []).
  destruct (restart_other_grid m D1 D2 P (box_types false) lid_values 0 z z z z vs1 ps1 vs2 ps2 mon mon mon confA conf1 conf2 5 5 5 dsk0 sA dA trA s1' d1 tr1 3 2 Hs1 Hs2 Hb Hmin Hi Hnc
    Hc Hdt eq_refl H1l ltac:(intros ? ? ? ? _ _; reflexivity) ltac:(intros ? ? ? _ _; reflexivity)
    eq_refl eq_refl eq_refl ltac:(cbn; lia) He eq_refl ltac:(lia) eq_refl eq_refl eq_refl (X1 _ _ _) (X2 _ _ _) HA H1 ltac:(exists 1%Z; reflexivity) (or_intror eq_refl) ltac:(discriminate) ltac:(discriminate) ltac:(lia))
    as (sB & dB & trB & HB & Hf).
  exists vs1, ps1, vs2, ps2, sA, dA, trA, s1', d1, tr1, sB, dB, trB.
  split; [exact Hs1|]. split; [exact Hs2|]. split; [reflexivity|]. split; [reflexivity|]. split; [exact Hb|]. split; [exact Hmin|]. split; [exact Hi|]. split; [exact Hnc|].
  split; [exact Hc|]. split; [exact Hdt|]. split; [reflexivity|]. split; [exact H1l|]. split; [apply X1|]. split; [apply X2|]. split; [exact HA|]. split; [exact H1|]. split; [exact HB|]. exact Hf.
Qed.

(** The full claim is false with the second-order Adams-Bashforth scheme: on a
    periodic 4 x 3 mesh, a run that starts with the x-velocity 1 on the first
    column and 0 elsewhere, resumed after one step on two ranks instead of one,
    does not continue the flow. *)
Definition column (D : dec) (id : Z) : R :=
  match nthZ (packed_layout 2 D) id with Some (f, p) => if ((f =? 0) && (pc p 0 =? 0))%Z then 1 else 0 | None => 0 end.
Lemma column_convection B y C' : let m := ex_mesh true true in let D := one_dec true true in
  boundary_after m D (wall_types true true) (fun _ _ => 0) [OpICs (column D)] B ->
  convectionMult m D (createConvection m D) B (column D) = Ok (y, C') -> y 3%Z <> y 13%Z.
Proof.
  intros m D HB E. pose proof (one_setup true true : mesh_setup m D) as Hs. pose proof (setup_facts _ _ Hs) as F. pose proof (wall_fits true true : bc_fits m _) as Hb.
  destruct (extends_box_exists m D _ _ _ B (column D) F Hb HB) as [u HX].
  assert (V : forall f q, (0 <= f < 2)%Z -> in_frame (m_n m f) q -> has_image (m_n m f) (periodic_dir m) q = true ->
    u f q = if ((f =? 0) && (pc (image (m_n m f) q) 0 =? 0))%Z then 1 else 0).
  { intros f q Hf Hq Hi. destruct HX as [(X1 & _) X2]. assert (Hf' : (0 <= f < m_dim m)%Z) by (unfold m; rewrite ex_dim; exact Hf).
    rewrite (X2 f q Hf' Hq Hi). pose proof (image_in m D f q F Hf') as Hin. destruct (idx_spec m D f _ F Hf' Hin) as [_ Ei]. rewrite (X1 _ _ _ Ei).
    unfold column. unfold m in Ei at 1. rewrite ex_dim in Ei. rewrite Ei. reflexivity. }
  assert (Q : forall f p, quiet_walls m D u f p).
  { intros f p d Hd _ Hp. exfalso. unfold m in Hd, Hp. rewrite ex_dim in Hd. assert (d = 0 \/ d = 1)%Z as [->| ->] by lia; vm_compute in Hp; discriminate. }
  rewrite (conv_value m D _ _ _ _ B _ u y C' 3 0 (3, 0, 0)%Z Hs Hb (cs_new _ _ _ _) HB HX E ltac:(vm_compute; reflexivity) (Q _ _)).
  rewrite (conv_value m D _ _ _ _ B _ u y C' 13 1 (1, 0, 0)%Z Hs Hb (cs_new _ _ _ _) HB HX E ltac:(vm_compute; reflexivity) (Q _ _)).
  assert (Z2 : forall (g : Z -> R), zsum g 0 (m_dim m) = g 0%Z + g 1%Z) by (intros g; unfold m; rewrite ex_dim; unfold zsum; change (zrange 0 2) with [0%Z; 1%Z]; cbn; ring).
  unfold convection_at, momentum_flux. rewrite !Z2.
  change (shift (3, 0, 0)%Z 0 1) with (4, 0, 0)%Z. change (shift (3, 0, 0)%Z 0 (-1)) with (2, 0, 0)%Z. change (shift (2, 0, 0)%Z 0 1) with (3, 0, 0)%Z.
  change (shift (3, 0, 0)%Z 1 1) with (3, 1, 0)%Z. change (shift (3, 0, 0)%Z 1 (-1)) with (3, -1, 0)%Z. change (shift (3, -1, 0)%Z 0 1) with (4, -1, 0)%Z.
  change (shift (1, 0, 0)%Z 0 1) with (2, 0, 0)%Z. change (shift (1, 0, 0)%Z 0 (-1)) with (0, 0, 0)%Z. change (shift (0, 0, 0)%Z 0 1) with (1, 0, 0)%Z.
  change (shift (1, 0, 0)%Z 1 1) with (1, 1, 0)%Z. change (shift (1, 0, 0)%Z 1 (-1)) with (1, -1, 0)%Z. change (shift (1, -1, 0)%Z 1 1) with (1, 0, 0)%Z.
  assert (U3 : u 0%Z (3, 0, 0)%Z = 0) by (rewrite (V 0%Z (3, 0, 0)%Z); [reflexivity|lia|vm_compute; repeat split; discriminate|vm_compute; reflexivity]).
  assert (U4 : u 0%Z (4, 0, 0)%Z = 1) by (rewrite (V 0%Z (4, 0, 0)%Z); [reflexivity|lia|vm_compute; repeat split; discriminate|vm_compute; reflexivity]).
  assert (U2 : u 0%Z (2, 0, 0)%Z = 0) by (rewrite (V 0%Z (2, 0, 0)%Z); [reflexivity|lia|vm_compute; repeat split; discriminate|vm_compute; reflexivity]).
  assert (W : forall i j, (-1 <= i <= 4)%Z -> (-1 <= j <= 3)%Z -> u 1%Z (i, j, 0)%Z = 0).
  { intros i j Hi Hj. rewrite (V 1%Z (i, j, 0)%Z); [reflexivity|lia| |].
    - assert (N : m_n m 1 0 = 4%Z /\ m_n m 1 1 = 3%Z /\ m_n m 1 2 = 1%Z) by (repeat split; vm_compute; reflexivity). unfold in_frame. lia.
    - unfold has_image. assert (P : periodic_dir m 0 = true /\ periodic_dir m 1 = true) by (split; vm_compute; reflexivity). destruct P as [-> ->].
      assert (N : m_n m 1 2 = 1%Z) by (vm_compute; reflexivity). rewrite N. unfold outside. destruct ((i <? 0) || (i >=? m_n m 1 0))%Z, ((j <? 0) || (j >=? m_n m 1 1))%Z; reflexivity. }
  rewrite U3, U4, U2, !W by lia. change (pc (3, 0, 0)%Z 0) with 3%Z. change (pc (3, 0, 0)%Z 1) with 0%Z.
  assert (Hw : 0 < wid m 0 0 3). { replace (wid m 0 0 3) with 2; [lra|]. cbv -[IZR Rplus Rminus Rmult Rinv Rdiv Ropp]. field. }
  intros E'. assert (X : 1 / wid m 0 0 3 > 0) by (apply Rdiv_lt_0_compat; lra). unfold Rdiv in *. lra.
Qed.

Theorem restart_other_grid_refuted : exists m D1 D2 P types values U1 U2 vs1 ps1 vs2 ps2 mon confA conf1 conf2 sA dA trA s1' d1 tr1 sB dB trB,
  mesh_setup m D1 /\ mesh_setup m D2 /\ bc_fits m types /\ periodic_min m 3 /\ impermeable m types values /\ no_convective m types /\
  0 <= p_dimp P * p_nu P /\ 0 < p_dt P /\ p_bn P = 1%Z /\ p_cexp P = [3/2; -(1/2)] /\ p_dexp P = [1/2] /\
  same_velocity m D1 D2 U1 U2 /\ probes_elsewhere (c_out conf1) mon /\
  confA = mkConf "o" "l" 0 2 1 1 /\ conf1 = mkConf "o" "l" 0 1 1 1 /\ conf2 = mkConf "o" "l" 1 1 1 1 /\
  (forall conf d k, exact_program conf m D1 P types values 0 U1 (fun _ => 0) vs1 ps1 d k) /\ (forall conf d k, exact_program conf m D2 P types values 0 U2 (fun _ => 0) vs2 ps2 d k) /\
  ns_main 2 confA m D1 P types values 0 U1 (fun _ => 0) mon (convection m D1) vs1 ps1 dsk0 = Ok (Some (sA, dA, trA)) /\
  ns_main 2 conf1 m D1 P types values 0 U1 (fun _ => 0) mon (convection m D1) vs1 ps1 dsk0 = Ok (Some (s1', d1, tr1)) /\
  ns_main 2 conf2 m D2 P types values 0 U2 (fun _ => 0) mon (convection m D2) vs2 ps2 d1 = Ok (Some (sB, dB, trB)) /\
  ~ same_flow m D1 D2 (p_refp P) sA sB.
Proof.
  set (m := ex_mesh true true). set (D1 := one_dec true true). set (D2 := ex_dec true true). set (P := mkPar (1/100) 1 1 [3/2; -(1/2)] (1/2) [1/2] true). set (z := fun _ : Z => 0).
  set (types := wall_types true true). set (values := fun _ _ : Z => 0). set (mon := fun _ : nsstate => @nil fsop).
  set (confA := mkConf "o" "l" 0 2 1 1). set (conf1 := mkConf "o" "l" 0 1 1 1). set (conf2 := mkConf "o" "l" 1 1 1 1).
  pose proof (one_setup true true : mesh_setup m D1) as Hs1. pose proof (ex_setup true true : mesh_setup m D2) as Hs2. pose proof (wall_fits true true : bc_fits m types) as Hb.
  assert (Hd : m_dim m = 2%Z) by apply ex_dim.
  assert (Hmin : periodic_min m 3).
  { intros f d Hf Hdd _. rewrite Hd in Hf, Hdd. assert (d = 0 \/ d = 1)%Z as [->| ->] by lia; assert (f = 0 \/ f = 1)%Z as [->| ->] by lia; vm_compute; discriminate. }
  assert (Hi : impermeable m types values).
  { intros f loc Hf _ _ Hp. exfalso. rewrite Hd in Hf. assert (f = 0 \/ f = 1)%Z as [->| ->] by lia; vm_compute in Hp; discriminate. }
  assert (Hnc : no_convective m types) by (intros f loc _ _; unfold types, wall_types; destruct (loc <? 2)%Z; discriminate).
  pose proof (impermeable_neumann m _ _ Hb Hi) as Hn.
  assert (Hc : 0 <= p_dimp P * p_nu P) by (cbn; lra). assert (Hdt : 0 < p_dt P) by (cbn; lra).
  assert (HU : same_velocity m D1 D2 (column D1) (column D2)).
  { intros i1 i2 f p H1 H2. rewrite Hd in H1, H2. unfold column. now rewrite H1, H2. }
  destruct (exact_programs m D1 P types values 0 (column D1) z Hs1 Hb Hmin Hn Hc Hdt eq_refl eq_refl) as (vs1 & ps1 & X1).
  destruct (exact_programs m D2 P types values 0 (column D2) z Hs2 Hb Hmin Hn Hc Hdt eq_refl eq_refl) as (vs2 & ps2 & X2).
  destruct (simulation_completes m D1 P types values 0 (column D1) z vs1 ps1 confA mon 2 dsk0 Hs1 Hb ltac:(cbn; lia) eq_refl ltac:(discriminate) ltac:(discriminate) ltac:(cbn; lia)) as (o1 & a1 & sA & dA & trA & _ & HA).
  destruct (simulation_completes m D1 P types values 0 (column D1) z vs1 ps1 conf1 mon 2 dsk0 Hs1 Hb ltac:(cbn; lia) eq_refl ltac:(discriminate) ltac:(discriminate) ltac:(cbn; lia)) as (ops & s1 & s1' & d1 & tr1 & Hst & H1).
  assert (He : probes_elsewhere (c_out conf1) mon) by (intros s o n []).
  destruct (restart_two_levels m D1 D2 P types values 0 (column D1) (column D2) z z vs1 ps1 vs2 ps2 mon mon mon confA conf1 conf2 2 2 2 dsk0 sA dA trA s1' d1 tr1 1 (3/2) (-(1/2)) Hs1 Hs2 Hb Hmin Hi Hnc
    Hc Hdt eq_refl eq_refl ltac:(lra) ltac:(cbn; lia) HU ltac:(intros ? ? ? _ _; reflexivity)
    eq_refl eq_refl eq_refl ltac:(cbn; lia) He eq_refl ltac:(lia) eq_refl eq_refl eq_refl (X1 _ _ _) (X2 _ _ _) HA H1 ltac:(exists 1%Z; reflexivity) (or_intror eq_refl) ltac:(discriminate) ltac:(discriminate) ltac:(lia))
    as (sB & dB & trB & HB & Hf).
  exists m, D1, D2, P, types, values, (column D1), (column D2), vs1, ps1, vs2, ps2, mon, confA, conf1, conf2, sA, dA, trA, s1', d1, tr1, sB, dB, trB.
  repeat (split; [first [assumption|reflexivity]|]). intros Hsf.
  destruct (run_length_lemma m D1 P types values 0 (column D1) z (convection m D1) vs1 ps1 conf1 mon 2 dsk0 s1' d1 tr1 ops s1 Hst H1) as (_ & Hks & _).
  change (Z.to_nat (c_nt conf1)) with 1%nat in Hks. pose proof Hst as (s0 & w & E1 & E2).
  destruct (ns_init_inv _ _ _ _ _ _ _ _ _ _ _ (setup_facts _ _ Hs1) Hb E1) as (B & HB0 & _ & E0).
  assert (Es : s1 = s0) by (unfold io_initial in E2; rewrite E0 in E2; cbn [s_ite] in E2; change (c_nstart conf1 =? 0)%Z with true in E2; cbv iota in E2; injection E2 as <- _; now rewrite E0).
  destruct (history_conv m D1 P ops (convection m D1) vs1 ps1 s1 1 s1' Hks) as [_ Hh]. specialize (Hh 0%Z).
  rewrite Es, E0 in Hh. cbn [s_conv] in Hh. specialize (Hh ltac:(cbn; lia)). change (0 <? Z.of_nat 1)%Z with true in Hh. cbv iota in Hh. destruct Hh as (s' & v & Ev & Et & En).
  injection Ev as <-. unfold convection_term in Et. cbn [s_bc s_U] in Et. apply bind_ok_inv in Et. destruct Et as (y & Ey & Et). injection Et as <-.
  unfold convection in Ey. apply bind_ok_inv in Ey. destruct Ey as ([y' C'] & Ey & Eq). injection Eq as <-.
  pose proof (column_convection B y' C' HB0 Ey) as Hne.
  pose proof (Hf Hsf _ 3%Z 13%Z 0%Z (3, 0, 0)%Z 1%Z (1, 0, 0)%Z En ltac:(vm_compute; reflexivity) ltac:(vm_compute; reflexivity) ltac:(vm_compute; reflexivity)) as Heq.
  unfold vscale in Heq. apply Hne. lra.
Qed.
Print Assumptions restart_other_grid_refuted.

(** The hypotheses of [restart_exact_solvers] are met: the cavity on two ranks
    with the second-order scheme, runs of 5 and of 3 + 2 steps. *)
Example resume_solvers_case : let m := ex_mesh false false in let D := ex_dec false false in
  let P := mkPar (1/100) 1 1 [3/2; -(1/2)] (1/2) [1/2] true in let z := fun _ : Z => 0 in
  let confA := mkConf "o" "l" 0 5 1 3 in let conf1 := mkConf "o" "l" 0 3 1 3 in let conf2 := mkConf "o" "l" 3 2 1 3 in let mon := fun _ : nsstate => @nil fsop in
  exists vs ps sA dA trA s1' d1 tr1 sB dB trB,
  exact_program confA m D P (box_types false) lid_values 0 z z vs ps dsk0 (3 + 2) /\ exact_program conf2 m D P (box_types false) lid_values 0 z z vs ps d1 2 /\
  ns_main 5 confA m D P (box_types false) lid_values 0 z z mon (convection m D) vs ps dsk0 = Ok (Some (sA, dA, trA)) /\
  ns_main 5 conf1 m D P (box_types false) lid_values 0 z z mon (convection m D) vs ps dsk0 = Ok (Some (s1', d1, tr1)) /\
  ns_main 5 conf2 m D P (box_types false) lid_values 0 z z mon (convection m D) vs ps d1 = Ok (Some (sB, dB, trB)) /\
  same_state m D D true sA sB.
Proof.
  intros m D P z confA conf1 conf2 mon. pose proof (ex_setup false false) as Hs. pose proof (box_fits false) as Hb.
  assert (Hmin : periodic_min m 3).
  { intros f d Hf Hd Hp. exfalso. unfold m in Hp, Hd. rewrite ex_dim in Hd. assert (d = 0 \/ d = 1)%Z as [->| ->] by lia; vm_compute in Hp; discriminate. }
  assert (Hnc : no_convective m (box_types false)) by (intros f loc _ _; discriminate).
  assert (Hn : no_normal_neumann m (box_types false)) by (intros f _; split; discriminate).
  assert (Hc : 0 <= p_dimp P * p_nu P) by (cbn; lra). assert (Hdt : 0 < p_dt P) by (cbn; lra).
  destruct (exact_programs m D P _ lid_values 0 z z Hs Hb Hmin Hn Hc Hdt eq_refl eq_refl) as (vs & ps & X1).
  destruct (simulation_completes m D P (box_types false) lid_values 0 z z vs ps confA mon 5 dsk0 Hs Hb ltac:(cbn; lia) eq_refl ltac:(discriminate) ltac:(discriminate) ltac:(cbn; lia)) as (o1 & a1 & sA & dA & trA & _ & HA).
  destruct (simulation_completes m D P (box_types false) lid_values 0 z z vs ps conf1 mon 5 dsk0 Hs Hb ltac:(cbn; lia) eq_refl ltac:(discriminate) ltac:(discriminate) ltac:(cbn; lia)) as (o2 & a2 & s1' & d1 & tr1 & _ & H1).
  assert (He : probes_elsewhere (c_out conf1) mon) by (intros s o n []).
  destruct (restart_exact_solvers m D P (box_types false) lid_values 0 z z vs ps vs ps mon mon mon confA conf1 conf2 5 5 5 dsk0 sA dA trA s1' d1 tr1 3 2 Hs Hb Hmin Hn Hnc Hc Hdt eq_refl
    eq_refl eq_refl eq_refl ltac:(cbn; lia) He eq_refl ltac:(lia) eq_refl eq_refl eq_refl (X1 _ _ _) (X1 _ _ _) HA H1 ltac:(exists 1%Z; reflexivity) (or_intror eq_refl) ltac:(discriminate) ltac:(discriminate) ltac:(lia))
    as (sB & dB & trB & HB & Hf).
  exists vs, ps, sA, dA, trA, s1', d1, tr1, sB, dB, trB. split; [apply X1|]. split; [apply X1|]. split; [exact HA|]. split; [exact H1|]. split; [exact HB|]. exact Hf.
Qed.
