(** C81. Immersed-boundary runs that are resumed with other linear solvers or on
    another process grid. *)
From Coq Require Import Lia ZifyBool String List.
Import ListNotations.
From Verif Require Import Prelude ZSum RSum TypesModel GridModel GridSpec GridProof GridProps MeshProof
  IndexModel IndexSpec IndexProof BoundaryModel BoundarySpec BoundaryProof OperatorModel OperatorSpec OperatorProof BStateProof LapProof DivProof GradProof
  AdjProof SymProof MatModel BnModel NSModel NSSpec NSProof NSPin BnSpec BnProof LinAlg UniqueProof ConvModel ConvSpec EnergySpec EnergyProof EnergyRun
  NameModel DriverModel DriverSpec DriverProof DriveProof RestartProof DriverProps
  BodyModel BodySpec BodyProof BodyProps DeltaModel DeltaSpec DeltaKernel DeltaProof DeltaSum DeltaProps IbpmModel IbpmSpec IbpmProof IbpmStep IbpmDec IbpmMove IbpmProps MoveProps
  DecSpec DecProof DecConv ResumeSpec ConfigInit IbOutDrive IbOutLines IbOutModel IbOutSpec IbOutBalance IbOutProps SimProps IndepSpec IndepProof IndepRun ExampleSetup IndepCase IndepProps IbGridSpec IbGridProof IbGridRun IbGridProps
  IbOutProof IbOutDec IbResumeSpec IbResumeDrive IbResumeProof IbResumeMain IbResumeTotal IbResumeCase.
Local Open Scope R_scope.

(** The decoupled solver. Runs A and 1 are on the grid D1; the resumed run is on
    the grid D2, from the files that run 1 left, with other linear solvers. Cells
    of equal size around the bodies, a flow that does not cross the boundaries,
    and either the same grid or at most one explicit term of each kind. If the
    unknowns of the forces have the same places on both grids, the resumed run
    completes and ends with the flow of the uninterrupted run; and with its
    forces, and the missing lines of its forces file, if no force is lost. *)
Theorem decoupled_restart_other_grid : forall m D1 D2 P types values name bs1 bs2 h K w t0 U1 U2 q1 q2 vs1 ps1 fs1 vs2 ps2 fs2 monA mon1 mon2 confA conf1 conf2 fuelA fuel1 fuel2 d sA dA lsA s1 d1 ls1 k j,
  mesh_setup m D1 -> mesh_setup m D2 -> bc_fits m types -> bodies_ok m D1 bs1 -> bodies_ok m D2 bs2 -> same_points bs1 bs2 -> same_order m D1 D2 bs1 bs2 ->
  uniform_around m h w bs1 -> getKernel name = Ok (K, w) -> wide_enough m w -> periodic_min m 3 -> impermeable m types values -> no_convective m types ->
  p_bn P = 1%Z -> 0 < p_dt P -> 0 <= p_dimp P * p_nu P -> D1 = D2 \/ one_level P -> same_velocity m D1 D2 U1 U2 ->
  (forall b i X, located bs1 b i X -> inside_domain m X /\ in_reach m types w X) ->
  (forall b bc r, nthZ bs2 b = Some bc -> (0 <= r < nranks D2)%Z -> (0 < b_l (fst bc) r)%Z) ->
  c_out confA = c_out conf1 -> c_out conf2 = c_out conf1 -> c_nstart confA = c_nstart conf1 -> (0 <= c_nstart conf1)%Z ->
  writes_elsewhere (c_out conf1) mon1 ->
  c_nt conf1 = Z.of_nat k -> (1 <= k)%nat -> c_nt confA = Z.of_nat (k + j) ->
  c_nstart conf2 = (c_nstart conf1 + Z.of_nat k)%Z -> c_nt conf2 = Z.of_nat j ->
  exact_decoupled_program confA m D1 P types values name bs1 t0 U1 q1 vs1 ps1 fs1 d (k + j) -> exact_decoupled_program conf2 m D2 P types values name bs2 t0 U2 q2 vs2 ps2 fs2 d1 j ->
  d_main fuelA confA m D1 P types values name bs1 t0 U1 q1 monA (convection m D1) vs1 ps1 fs1 d = Ok (Some (sA, dA, lsA)) ->
  d_main fuel1 conf1 m D1 P types values name bs1 t0 U1 q1 mon1 (convection m D1) vs1 ps1 fs1 d = Ok (Some (s1, d1, ls1)) ->
  (c_nrestart conf1 | c_nstart conf2)%Z ->
  (c_nsave conf1 | c_nstart conf2)%Z \/ d (solution_path (c_out conf1) (c_nstart conf2)) = None ->
  c_nsave conf2 <> 0%Z -> c_nrestart conf2 <> 0%Z -> (j <= fuel2)%nat ->
  exists sB dB ls2, d_main fuel2 conf2 m D2 P types values name bs2 t0 U2 q2 mon2 (convection m D2) vs2 ps2 fs2 d1 = Ok (Some (sB, dB, ls2)) /\
    ResumeSpec.same_flow m D1 D2 (p_refp P) (x_ns sA) (x_ns sB) /\
    (program_felt m D1 P types values name bs1 t0 U1 q1 -> same_forces m D1 D2 bs1 bs2 (x_f sA) (x_f sB) /\ lsA = ls1 ++ ls2).
Proof.
  intros m D1 D2 P types values name bs1 bs2 h K w t0 U1 U2 q1 q2 vs1 ps1 fs1 vs2 ps2 fs2 monA mon1 mon2 confA conf1 conf2 fuelA fuel1 fuel2 d sA dA lsA s1 d1 ls1 k j
    Hs1 Hs2 Hb Hbo1 Hbo2 Hsm Hord Hu HK Hw Hmin Himp Hnc Hbn Hdt Hc Hor HU Hin Hrk HoA Ho2 HnA H0 Hm Hk Hk1 HkA Hn2 Hj XA XB HA H1 Hr Hsv N1 N2 Hfu.
  assert (Hin2 : forall b i X, located bs2 b i X -> inside_domain m X /\ in_reach m types w X) by (intros b i X Hl; apply (Hin b i), (located_same bs1 bs2 Hsm), Hl).
  destruct (decoupled_resumable m D1 D2 P types values name bs1 bs2 K w t0 U1 U2 q1 q2 Hs1 Hs2 Hb Hbo1 Hbo2 Hsm HK ltac:(lia) Hin2 Hrk conf1 conf2 k j fuel1 fuel2 d Ho2 H0 Hk Hk1 Hn2 Hj Hr Hsv N1 N2 Hfu
    vs1 ps1 vs2 ps2 fs1 fs2 mon1 mon2 s1 d1 ls1 Hm H1) as (sB & dB & ls2 & HB).
  exists sB, dB, ls2. split; [exact HB|].
  exact (decoupled_resume m D1 D2 P types values name bs1 bs2 K h w t0 U1 U2 q1 q2 Hs1 Hs2 Hb Hbo1 Hbo2 Hsm HK Hw Hmin Himp Hnc Hbn Hdt Hc HU Hor Hord confA conf1 conf2 k j d HoA Ho2 HnA H0 Hk Hk1 HkA Hn2 Hj Hr Hsv Hu
    vs1 ps1 fs1 vs2 ps2 fs2 monA mon1 mon2 fuelA fuel1 fuel2 sA dA lsA s1 d1 ls1 sB dB ls2 Hm HA H1 HB XA XB).
Qed.
Print Assumptions decoupled_restart_other_grid.

(** The decoupled solver with bodies whose motion is prescribed, if no force is
    lost in the resumed steps. *)
Theorem moving_restart_other_grid : forall m D1 D2 P types values name bs1 bs2 mo1 mo2 pos vel h K w t0 U1 U2 q1 q2 vs1 ps1 fs1 vs2 ps2 fs2 monA mon1 mon2 confA conf1 conf2 fuelA fuel1 fuel2 d sA dA lsA s1 d1 ls1 k j,
  mesh_setup m D1 -> mesh_setup m D2 -> bc_fits m types -> bodies_ok m D1 bs1 -> bodies_ok m D2 bs2 -> same_points bs1 bs2 -> same_order m D1 D2 bs1 bs2 ->
  prescribed m D1 bs1 mo1 pos vel -> prescribed m D2 bs2 mo2 pos vel ->
  (forall t, uniform_around m h w (bodies_at bs1 (pos t))) -> getKernel name = Ok (K, w) -> wide_enough m w -> periodic_min m 3 -> impermeable m types values -> no_convective m types ->
  p_bn P = 1%Z -> 0 < p_dt P -> 0 <= p_dimp P * p_nu P -> D1 = D2 \/ one_level P -> same_velocity m D1 D2 U1 U2 ->
  (forall b i X, located bs1 b i X -> inside_domain m X /\ in_reach m types w X) ->
  (forall i b p X, (1 <= i <= j)%nat -> located (bodies_at bs1 (pos (s_t (x_ns (r_x s1)) + INR i * p_dt P))) b p X -> inside_domain m X /\ in_reach m types w X) ->
  (forall b bc r, nthZ bs2 b = Some bc -> (0 <= r < nranks D2)%Z -> (0 < b_l (fst bc) r)%Z) ->
  c_out confA = c_out conf1 -> c_out conf2 = c_out conf1 -> c_nstart confA = c_nstart conf1 -> (0 <= c_nstart conf1)%Z ->
  writes_elsewhere (c_out conf1) mon1 ->
  c_nt conf1 = Z.of_nat k -> (1 <= k)%nat -> c_nt confA = Z.of_nat (k + j) ->
  c_nstart conf2 = (c_nstart conf1 + Z.of_nat k)%Z -> c_nt conf2 = Z.of_nat j -> (1 <= j)%nat ->
  exact_moving_program confA m D1 P types values name bs1 mo1 t0 U1 q1 vs1 ps1 fs1 d (k + j) -> exact_moving_program conf2 m D2 P types values name bs2 mo2 t0 U2 q2 vs2 ps2 fs2 d1 j ->
  r_main fuelA confA m D1 P types values name bs1 mo1 t0 U1 q1 monA (convection m D1) vs1 ps1 fs1 d = Ok (Some (sA, dA, lsA)) ->
  r_main fuel1 conf1 m D1 P types values name bs1 mo1 t0 U1 q1 mon1 (convection m D1) vs1 ps1 fs1 d = Ok (Some (s1, d1, ls1)) ->
  (forall n O a i B X, r_init m D1 P types values name bs1 t0 n U1 q1 = Ok (O, a) -> (1 <= i <= j)%nat -> (exists hist, boundary_after m D1 types values hist B) ->
     createExtraOperators m D1 B P O name (bodies_at bs1 (pos (s_t (x_ns (r_x s1)) + INR i * p_dt P))) = Ok X -> forces_felt m (n_forces m bs1) X) ->
  (c_nrestart conf1 | c_nstart conf2)%Z ->
  (c_nsave conf1 | c_nstart conf2)%Z \/ d (solution_path (c_out conf1) (c_nstart conf2)) = None ->
  c_nsave conf2 <> 0%Z -> c_nrestart conf2 <> 0%Z -> (j <= fuel2)%nat ->
  exists sB dB ls2, r_main fuel2 conf2 m D2 P types values name bs2 mo2 t0 U2 q2 mon2 (convection m D2) vs2 ps2 fs2 d1 = Ok (Some (sB, dB, ls2)) /\
    ResumeSpec.same_flow m D1 D2 (p_refp P) (x_ns (r_x sA)) (x_ns (r_x sB)) /\
    same_forces m D1 D2 bs1 bs2 (x_f (r_x sA)) (x_f (r_x sB)) /\ same_points (r_bodies sA) (r_bodies sB) /\ lsA = ls1 ++ ls2.
Proof.
  intros m D1 D2 P types values name bs1 bs2 mo1 mo2 pos vel h K w t0 U1 U2 q1 q2 vs1 ps1 fs1 vs2 ps2 fs2 monA mon1 mon2 confA conf1 conf2 fuelA fuel1 fuel2 d sA dA lsA s1 d1 ls1 k j
    Hs1 Hs2 Hb Hbo1 Hbo2 Hsm Hord Hmo1 Hmo2 Hu HK Hw Hmin Himp Hnc Hbn Hdt Hc Hor HU Hin Hin2 Hrk HoA Ho2 HnA H0 Hm Hk Hk1 HkA Hn2 Hj Hj1 XA XB HA H1 Hff Hr Hsv N1 N2 Hfu.
  assert (HinB : forall b i X, located bs2 b i X -> inside_domain m X /\ in_reach m types w X) by (intros b i X Hl; apply (Hin b i), (located_same bs1 bs2 Hsm), Hl).
  destruct (moving_resumable m D1 D2 P types values name bs1 bs2 K w t0 U1 U2 q1 q2 Hs1 Hs2 Hb Hbo1 Hbo2 Hsm HK ltac:(lia) HinB Hrk conf1 conf2 k j fuel1 fuel2 d Ho2 H0 Hk Hk1 Hn2 Hj Hr Hsv N1 N2 Hfu
    vs1 ps1 vs2 ps2 mo1 mo2 pos vel fs1 fs2 mon1 mon2 s1 d1 ls1 Hmo1 Hmo2 Hm H1) as (sB & dB & ls2 & HB).
  { intros i b p X Hi Hl. apply (Hin2 i b p X Hi). revert Hl. apply located_same. unfold same_points.
    rewrite !at_snd; [reflexivity|exact (shape_len _ _ (proj1 (Hmo2 _)))|exact (shape_len _ _ (proj1 (Hmo1 _)))]. }
  exists sB, dB, ls2. split; [exact HB|].
  exact (moving_resume m D1 D2 P types values name bs1 bs2 K h w t0 U1 U2 q1 q2 Hs1 Hs2 Hb Hbo1 Hbo2 Hsm HK Hw Hmin Himp Hnc Hbn Hdt Hc HU Hor Hord confA conf1 conf2 k j d HoA Ho2 HnA H0 Hk Hk1 HkA Hn2 Hj Hr Hsv
    mo1 mo2 pos vel vs1 ps1 vs2 ps2 fs1 fs2 Hmo1 Hmo2 Hu monA mon1 mon2 fuelA fuel1 fuel2 sA dA lsA s1 d1 ls1 sB dB ls2 Hm Hj1 HA H1 HB XA XB Hff).
Qed.
Print Assumptions moving_restart_other_grid.

(** The coupled solver: the time, the step, the velocity, and the pressure
    gradient less the spread forces. *)
Theorem coupled_restart_other_grid : forall m D1 D2 P types values name bs1 bs2 h K w t0 U1 U2 q1 q2 vs1 ps1 vs2 ps2 monA mon1 mon2 confA conf1 conf2 fuelA fuel1 fuel2 d sA dA lsA s1 d1 ls1 k j,
  mesh_setup m D1 -> mesh_setup m D2 -> bc_fits m types -> bodies_ok m D1 bs1 -> bodies_ok m D2 bs2 -> same_points bs1 bs2 -> same_order m D1 D2 bs1 bs2 ->
  uniform_around m h w bs1 -> getKernel name = Ok (K, w) -> wide_enough m w -> periodic_min m 3 -> impermeable m types values -> no_convective m types ->
  p_bn P = 1%Z -> 0 < p_dt P -> 0 <= p_dimp P * p_nu P -> D1 = D2 \/ one_level P -> same_velocity m D1 D2 U1 U2 ->
  (forall b i X, located bs1 b i X -> inside_domain m X /\ in_reach m types w X) ->
  (forall b bc r, nthZ bs2 b = Some bc -> (0 <= r < nranks D2)%Z -> (0 < b_l (fst bc) r)%Z) ->
  c_out confA = c_out conf1 -> c_out conf2 = c_out conf1 -> c_nstart confA = c_nstart conf1 -> (0 <= c_nstart conf1)%Z ->
  writes_elsewhere (c_out conf1) mon1 ->
  c_nt conf1 = Z.of_nat k -> (1 <= k)%nat -> c_nt confA = Z.of_nat (k + j) ->
  c_nstart conf2 = (c_nstart conf1 + Z.of_nat k)%Z -> c_nt conf2 = Z.of_nat j ->
  exact_coupled_program confA m D1 P types values name bs1 t0 U1 q1 vs1 ps1 d (k + j) -> exact_coupled_program conf2 m D2 P types values name bs2 t0 U2 q2 vs2 ps2 d1 j ->
  ib_main fuelA confA m D1 P types values name bs1 t0 U1 q1 monA (convection m D1) vs1 ps1 d = Ok (Some (sA, dA, lsA)) ->
  ib_main fuel1 conf1 m D1 P types values name bs1 t0 U1 q1 mon1 (convection m D1) vs1 ps1 d = Ok (Some (s1, d1, ls1)) ->
  (c_nrestart conf1 | c_nstart conf2)%Z ->
  (c_nsave conf1 | c_nstart conf2)%Z \/ d (solution_path (c_out conf1) (c_nstart conf2)) = None ->
  c_nsave conf2 <> 0%Z -> c_nrestart conf2 <> 0%Z -> (j <= fuel2)%nat ->
  exists sB dB ls2, ib_main fuel2 conf2 m D2 P types values name bs2 t0 U2 q2 mon2 (convection m D2) vs2 ps2 d1 = Ok (Some (sB, dB, ls2)) /\
    s_t sA = s_t sB /\ s_ite sA = s_ite sB /\ same_velocity m D1 D2 (s_U sA) (s_U sB) /\
    forall n1 n2 O1 O2 a1 a2, ib_init m D1 P types values name bs1 t0 n1 U1 q1 = Ok (O1, a1) -> ib_init m D2 P types values name bs2 t0 n2 U2 q2 = Ok (O2, a2) ->
      same_velocity m D1 D2 (mvec (ib_n O1) (o_G (ib_ns O1)) (s_p sA)) (mvec (ib_n O2) (o_G (ib_ns O2)) (s_p sB)).
Proof.
  intros m D1 D2 P types values name bs1 bs2 h K w t0 U1 U2 q1 q2 vs1 ps1 vs2 ps2 monA mon1 mon2 confA conf1 conf2 fuelA fuel1 fuel2 d sA dA lsA s1 d1 ls1 k j
    Hs1 Hs2 Hb Hbo1 Hbo2 Hsm Hord Hu HK Hw Hmin Himp Hnc Hbn Hdt Hc Hor HU Hin Hrk HoA Ho2 HnA H0 Hm Hk Hk1 HkA Hn2 Hj XA XB HA H1 Hr Hsv N1 N2 Hfu.
  assert (Hin2 : forall b i X, located bs2 b i X -> inside_domain m X /\ in_reach m types w X) by (intros b i X Hl; apply (Hin b i), (located_same bs1 bs2 Hsm), Hl).
  destruct (coupled_resumable m D1 D2 P types values name bs1 bs2 K w t0 U1 U2 q1 q2 Hs1 Hs2 Hb Hbo1 Hbo2 Hsm HK ltac:(lia) Hin2 Hrk conf1 conf2 k j fuel1 fuel2 d Ho2 H0 Hk Hk1 Hn2 Hj Hr Hsv N1 N2 Hfu
    vs1 ps1 vs2 ps2 mon1 mon2 s1 d1 ls1 Hm H1) as (sB & dB & ls2 & HB).
  exists sB, dB, ls2. split; [exact HB|].
  exact (coupled_resume m D1 D2 P types values name bs1 bs2 K h w t0 U1 U2 q1 q2 Hs1 Hs2 Hb Hbo1 Hbo2 Hsm HK Hw Hmin Himp Hnc Hbn Hdt Hc HU Hor Hord confA conf1 conf2 k j d HoA Ho2 HnA H0 Hk Hk1 HkA Hn2 Hj Hr Hsv Hu
    vs1 ps1 vs2 ps2 monA mon1 mon2 fuelA fuel1 fuel2 sA dA lsA s1 d1 ls1 sB dB ls2 Hm HA H1 HB XA XB).
Qed.
Print Assumptions coupled_restart_other_grid.

(** * When the forces have the same places *)
(** One body, whatever the two grids and the two distributions of its points. *)
Theorem one_body_same_order : forall m D1 D2 bs1 bs2, bodies_ok m D1 bs1 -> bodies_ok m D2 bs2 -> same_points bs1 bs2 -> lenZ bs1 = 1%Z -> same_order m D1 D2 bs1 bs2.
Proof.
  intros m D1 D2 bs1 bs2 [P1 C1] [P2 C2] Hsm Hl. unfold same_points in Hsm.
  destruct bs1 as [|[b1 c1] [|x1 r1]]; [change (lenZ (@nil (body * list (list R)))) with 0%Z in Hl; lia| |rewrite !lenZ_cons in Hl; pose proof (lenZ_nonneg r1); lia].
  destruct bs2 as [|[b2 c2] [|? ?]]; try discriminate Hsm. cbn [map fst snd] in *. injection Hsm as <-.
  apply Forall_inv in C1, C2. cbn [fst snd] in *. destruct C1 as [E1 _], C2 as [E2 _].
  unfold same_order. cbn [map fst]. rewrite !one_body_layout by assumption. now rewrite <- E1, <- E2.
Qed.
Print Assumptions one_body_same_order.
(** The same number of processes, each with as many points of each body. *)
Theorem same_shares_same_order : forall m D1 D2 bs1 bs2, nranks D1 = nranks D2 -> lenZ bs1 = lenZ bs2 ->
  (forall b x1 x2 r, nthZ bs1 b = Some x1 -> nthZ bs2 b = Some x2 -> (0 <= r < nranks D1)%Z -> b_l (fst x1) r = b_l (fst x2) r) -> same_order m D1 D2 bs1 bs2.
Proof.
  intros m D1 D2 bs1 bs2 HD Hl Hs. unfold same_order, body_layout. rewrite <- HD, !lenZ_map, <- Hl. apply ConfigInit.flat_map_ext_in. intros r Hr. apply zrange_In in Hr. apply ConfigInit.flat_map_ext_in. intros b Hb. apply zrange_In in Hb.
  rewrite !nthZ_map. destruct (nthZ bs1 b) as [x1|] eqn:E1; [|apply nthZ_None in E1; lia]. destruct (nthZ bs2 b) as [x2|] eqn:E2; [|apply nthZ_None in E2; lia]. cbn [option_map].
  assert (Q : forall r, (0 <= r < nranks D1)%Z -> b_l (fst x1) r = b_l (fst x2) r) by (intros r' Hr'; eapply Hs; eauto).
  assert (Bg : b_bg (fst x1) r = b_bg (fst x2) r) by (unfold b_bg; apply isum_ext; intros; apply Q; lia).
  unfold body_block, b_ed. now rewrite Bg, Q.
Qed.
Print Assumptions same_shares_same_order.

(** * When they have not *)
(** What a restart file does to the forces: they keep their places in the
    distributed vector. The resumed run begins with the force at (b', i', c') that
    run 1 left at the unknown (b, i, c) with the same place on its grid. *)
Theorem restart_moves_forces : forall m D1 D2 P types values name bs1 bs2 t0 U1 U2 q1 q2 vs1 ps1 fs1 mon1 conf1 conf2 fuel1 d s1 d1 ls1 k,
  mesh_setup m D1 -> mesh_setup m D2 -> bc_fits m types -> bodies_ok m D1 bs1 -> bodies_ok m D2 bs2 -> same_points bs1 bs2 ->
  c_out conf2 = c_out conf1 -> (0 <= c_nstart conf1)%Z -> writes_elsewhere (c_out conf1) mon1 -> c_nt conf1 = Z.of_nat k -> (1 <= k)%nat -> c_nstart conf2 = (c_nstart conf1 + Z.of_nat k)%Z ->
  (c_nrestart conf1 | c_nstart conf2)%Z ->
  (c_nsave conf1 | c_nstart conf2)%Z \/ d (solution_path (c_out conf1) (c_nstart conf2)) = None ->
  d_main fuel1 conf1 m D1 P types values name bs1 t0 U1 q1 mon1 (convection m D1) vs1 ps1 fs1 d = Ok (Some (s1, d1, ls1)) ->
  forall O X x0 x1 w, d_init m D2 P types values name bs2 t0 (c_nstart conf2) U2 q2 = Ok (O, X, x0) ->
    io_initial_with x_ite (d_write_solution m D2) (d_read_restart m D2 (n_forces m bs2)) conf2 x0 (run_ops (f_init_ops m conf2) d1) = Ok (x1, w) ->
    forall row b i c b' i' c', nthZ (body_layout (nranks D1) (m_dim m) (map fst bs1)) row = Some (b, i, c) -> nthZ (body_layout (nranks D2) (m_dim m) (map fst bs2)) row = Some (b', i', c') ->
      x_f x1 row = x_f s1 row.
Proof.
  intros m D1 D2 P types values name bs1 bs2 t0 U1 U2 q1 q2 vs1 ps1 fs1 mon1 conf1 conf2 fuel1 d s1 d1 ls1 k Hs1 Hs2 Hb Hbo1 Hbo2 Hsm Ho2 H0 Hm Hk Hk1 Hn2 Hr Hsv H1 O X x0 x1 w HI HIO row b i c b' i' c' L1 L2.
  rewrite d_main_is in H1.
  destruct (g_left m x_ite (e_init m D1 P types values name bs1 t0 U1 q1) (fun _ => d_write_solution m D1) (fun _ => d_write_restart m D1 (n_forces m bs1)) (fun _ => d_read_restart m D1 (n_forces m bs1)) (fun _ => e_line m D1 bs1) (e_step m D1 P bs1 (convection m D1) vs1 ps1 fs1)
    (e_init_any m D1 P types values name bs1 t0 U1 q1) (fun OX => e_ite m D1 P _ vs1 ps1 _ _ _ _ _) (fun _ => e_rite m D1 _) (fun _ => e_ws m D1) (fun _ => e_wr m D1 _) (fun _ => e_inv m D1 P types values) (fun _ => e_holds m D1 bs1)
    (e_inv0 m D1 P types values name bs1 t0 U1 q1 Hs1 Hb) (fun n OX x0 p d x1 H => e_invR m D1 P types values Hs1 Hb _ p d x0 x1 (e_inv0 m D1 P types values name bs1 t0 U1 q1 Hs1 Hb n OX x0 H))
    (fun OX => e_invS m D1 P types values _ vs1 ps1 Hs1 Hb _ _ _ _ _) (fun OX xk path d' _ _ Hd => e_file m D1 bs1 Hs1 xk path d' Hd)
    conf1 conf1 mon1 mon1 fuel1 fuel1 d s1 d1 ls1 s1 d1 ls1 k 0%nat eq_refl eq_refl H0 Hm Hk Hk1 ltac:(lia) H1 H1) as ([O1 X1] & y0 & y1 & wA & Fl & E1 & E2 & Rk & Rj & Ik & Hik & EF & (_ & _ & Ef) & _).
  { rewrite <- Hn2. exact Hr. } { rewrite <- Hn2. exact Hsv. }
  rewrite <- Hn2, <- Ho2 in EF. destruct (e_init_any m D2 P types values name bs2 t0 U2 q2 _ _ _ HI) as [Hi _].
  unfold io_initial_with in HIO. cbv zeta in HIO. rewrite Hi in HIO. destruct (Z.eqb_spec (c_nstart conf2) 0) as [C|_]; [lia|]. apply bind_ok_inv in HIO. destruct HIO as (x' & ER & HIO). injection HIO as <- _.
  unfold d_read_restart in ER. apply bind_ok_inv in ER. destruct ER as (s' & _ & ER). apply bind_ok_inv in ER. destruct ER as (f & EL & ER). injection ER as <-. cbn [x_f].
  pose proof (forces_same m D1 D2 bs1 bs2 Hbo1 Hbo2 Hsm) as En.
  destruct (load_force_ok (solution_path (c_out conf2) (c_nstart conf2)) (n_forces m bs2) (run_ops (f_init_ops m conf2) d1) (x_f s1) (x_f x0) Fl (nf_nonneg m D2 bs2 Hbo2)) as (f' & EL' & V).
  { rewrite f_init_other by lia. exact EF. } { rewrite <- En. exact Ef. }
  rewrite EL in EL'. injection EL' as <-. symmetry. apply V. apply nthZ_Some_range in L2. now rewrite (body_layout_len (nranks D2) (m_dim m) (map fst bs2)) in L2 by apply Hbo2.
Qed.
Print Assumptions restart_moves_forces.

(** The forces after the first step of a scheme without diffusion and convection
    that starts from the velocity [- dt H v]. *)
Lemma first_forces m D dt nu refp types values name bs t0 n0 U0 O X x0 vs ps fs v x : let P := mkPar dt nu 1 [] 0 [] refp in let nf := n_forces m bs in
  mesh_setup m D -> bc_fits m types -> bodies_ok m D bs -> 0 < dt -> d_init m D P types values name bs t0 n0 U0 (fun _ => 0) = Ok (O, X, x0) -> forces_felt m nf X ->
  (forall i, (0 <= i < n_velocity m)%Z -> U0 i = - (dt * mvec nf (di_H X) v i)) ->
  decoupled_exact_step m D P O X nf (convection m D) (d_assembleRHSForces m X) vs ps fs x0 -> d_advance m D P O X nf (convection m D) (d_assembleRHSForces m X) vs ps fs x0 = Ok x ->
  forall r, (0 <= r < nf)%Z -> x_f x r = v r.
Proof.
  intros P nf Hs Hb Hbo Hdt HI Hff HU Hex Ea r Hr. destruct (d_init_inv m D P types values Hs Hb _ _ _ _ _ _ _ _ _ HI) as (B & HB & EO & EX & Ex0).
  destruct (extra_facts m D P name bs O Hs eq_refl _ X EX) as (HE & HBn & EE).
  unfold d_advance in Ea. cbv zeta in Ea. apply bind_ok_inv in Ea. destruct Ea as ([rhs1 s1] & ER & Ea). apply bind_ok_inv in Ea. destruct Ea as (rhs2 & E2 & Ea). apply bind_ok_inv in Ea. destruct Ea as (B2 & _ & Ea). injection Ea as <-. cbn [x_f].
  unfold d_assembleRHSVelocity in ER. apply bind_ok_inv in ER. destruct ER as ([rhs0 s1'] & ER & E1). injection E1 as <- ->. unfold assembleRHSVelocity in ER. pose proof (rhsvel_inv _ _ _ _ _ _ _ _ _ ER) as (_ & _ & _ & EU & _ & _). cbn [s_U] in EU.
  rewrite EU in E2 |- *. destruct (Hex _ _ _ ER E2) as (SV & SF & _).
  assert (R0 : forall i, rhs0 i = U0 i / dt).
  { rewrite Ex0 in ER. cbn [x_ns s_t s_ite s_U s_p s_dP s_conv s_diff s_bc] in ER. unfold rhs_velocity in ER. cbn [s_t s_ite s_U s_p s_dP s_conv s_diff s_bc P p_cexp p_dexp p_dimp p_dt p_nu map] in ER.
    do 6 (apply bind_ok_inv in ER; destruct ER as (? & ? & ER)). apply bind_ok_inv in ER. destruct ER as (? & _ & ER). apply bind_ok_inv in ER. destruct ER as (cc & _ & ER). injection ER as <- _.
    repeat match goal with H : rotate [] = Ok _ |- _ => injection H as <- | H : (if (0 <? lenZ _)%Z then _ else _) = Ok _ |- _ => injection H as <- | H : add_terms [] _ _ = Ok _ |- _ => injection H as <- end.
    intros i. unfold vaxpy, vscale. assert (Z0 : mvec (n_pressure m) (o_G O) (fun _ => 0) i = 0) by (apply sumR_zero; intros; ring). rewrite Z0. field. lra. }
  set (U1 := vs _ _) in *. set (df := fs _ _) in *.
  assert (V1 : forall i, (0 <= i < n_velocity m)%Z -> U1 i = U0 i).
  { intros i Hi. pose proof (SV i Hi) as Q. destruct (createOperators_inv _ _ _ _ _ EO) as (dd & g & l & BN & _ & _ & _ & _ & EOO). rewrite EOO in Q. cbn [o_A P p_dimp p_nu p_dt] in Q.
    rewrite mvec_shift in Q by exact Hi. unfold vaxpy in Q. rewrite R0 in Q. rewrite Ex0 in Q. cbn [x_f] in Q. assert (Z0 : mvec nf (di_H X) (fun _ => 0) i = 0) by (apply sumR_zero; intros; ring). rewrite Z0 in Q.
    apply (Rmult_eq_reg_l (1 / dt)); [|apply Rgt_not_eq; unfold Rdiv; rewrite Rmult_1_l; now apply Rinv_0_lt_compat]. replace (1 / dt * U0 i) with (U0 i / dt) by (field; lra). lra. }
  assert (VD : forall i, (0 <= i < n_velocity m)%Z -> mvec nf (di_H X) df i = mvec nf (di_H X) v i).
  { refine (kernel_still (n_velocity m) nf (volume m D) (di_H X) (di_E X) (di_BNH X) dt 1 false df v (d_assembleRHSForces m X U1) _ _ _ _ _ _ _); try lra.
    - intros. now apply volume_pos.
    - intros r0 c _ Hc. rewrite (HE r0 c Hc). ring.
    - intros c j Hc _. now apply HBn.
    - rewrite <- EE. exact SF.
    - intros r0 Hr0. rewrite mvec_mmul. unfold d_assembleRHSForces, vscale. unfold mvec at 1 3. unfold zsum. rewrite <- sumR_scal. apply sumR_ext. intros c Hc. apply zrange_In in Hc.
      rewrite (V1 c Hc), (HU c Hc). replace (mvec nf (di_BNH X) v c) with (dt * mvec nf (di_H X) v c); [ring|]. unfold mvec, zsum. rewrite <- sumR_scal. apply sumR_ext. intros j _. rewrite HBn by exact Hc. cbn [P p_dt]. ring. }
  unfold vaxpy. rewrite Ex0. cbn [x_f]. enough (Q : (fun i => df i - v i) r = 0) by (cbn beta in Q; lra). apply (Hff (fun i => df i - v i)); [|exact Hr].
  intros i Hi. replace (mvec nf (di_H X) (fun i0 => df i0 - v i0) i) with (mvec nf (di_H X) df i - mvec nf (di_H X) v i); [rewrite VD by exact Hi; ring|].
  unfold mvec, zsum. rewrite <- sumR_minus. apply sumR_ext. intros j _. ring.
Qed.
