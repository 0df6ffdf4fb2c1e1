(** Exact solvers solve every system of a run that nothing drives. *)
From Coq Require Import Lia ZifyBool String List.
Import ListNotations.
From Verif Require Import Prelude ZSum RSum TypesModel GridModel GridSpec GridProof MeshProof
  IndexModel IndexSpec IndexProof BoundaryModel BoundarySpec BoundaryProof OperatorModel OperatorSpec OperatorProof BStateProof LapProof DivProof GradProof
  AdjProof SymProof MatModel BnModel NSModel NSSpec NSProof NSPin BnSpec BnProof LinAlg UniqueProof ConvSpec EnergySpec EnergyProof EnergyRun
  BodyModel BodySpec BodyProof DeltaModel DeltaSpec DeltaKernel DeltaProof DeltaSum IbpmModel IbpmSpec IbpmProof IbpmStep IbpmDec IbpmMove RestartProof DecSpec IndepSpec IndepProof IndepRun.
Local Open Scope R_scope.

Lemma projection_solvable nv n (w z : Z -> R) (G Dm BNG : mat) dt (refp : bool) (U1 b : vec) : (1 <= n)%Z -> dt <> 0 ->
  (forall c, (0 <= c < nv)%Z -> 0 < w c) ->
  (forall r c, (0 <= r < n)%Z -> (0 <= c < nv)%Z -> Dm r c = - (w c * G c r)) ->
  (forall c j, (0 <= c < nv)%Z -> (0 <= j < n)%Z -> BNG c j = dt * G c j) ->
  z 0%Z = 1 -> (forall c, (0 <= c < nv)%Z -> zsum (fun r => z r * Dm r c) 0 n = 0) ->
  let A := mmul nv Dm BNG in
  (forall i, (0 <= i < n)%Z -> b i = if refp && (i =? 0)%Z then 0 else mvec nv Dm U1 i) ->
  exists x, solves n (if refp then pin A else A) x b.
Proof.
  intros Hn Hdt Hw HA HB Hz0 Hz A Hbv.
  assert (AG : forall x i, (0 <= i < n)%Z -> mvec n A x i = dt * mvec nv Dm (mvec n G x) i).
  { intros x i Hi. unfold A. rewrite mvec_mmul. unfold mvec at 1 3. unfold zsum at 1 2. rewrite <- sumR_scal. apply sumR_ext. intros c Hc. apply zrange_In in Hc.
    assert (E : mvec n BNG x c = dt * mvec n G x c). { unfold mvec, zsum. rewrite <- sumR_scal. apply sumR_ext. intros j Hj. apply zrange_In in Hj. rewrite HB by auto. ring. }
    rewrite E. ring. }
  assert (Sym : forall i j, (0 <= i < n)%Z -> (0 <= j < n)%Z -> A i j = A j i).
  { intros i j Hi Hj. unfold A, mmul. apply zsum_ext. intros c Hc. rewrite !HA, !HB by auto. ring. }
  assert (Null : forall i, (0 <= i < n)%Z -> mvec n A z i = 0).
  { intros i Hi. transitivity (zsum (fun l => z l * A l i) 0 n).
    - unfold mvec. apply zsum_ext. intros l Hl. rewrite (Sym i l) by auto. ring.
    - unfold A, mmul, zsum. rewrite (sumR_ext _ (fun j => sumR (fun c => z j * Dm j c * BNG c i) (zrange 0 nv))) by (intros; rewrite <- sumR_scal; apply sumR_ext; intros; ring).
      rewrite sumR_swap. apply sumR_zero. intros c Hc. apply zrange_In in Hc. rewrite sumR_scal_r. specialize (Hz c Hc). unfold zsum in Hz. rewrite Hz. ring. }
  destruct (normal_solvable nv w G Hw n ltac:(lia) U1) as (x & Hx).
  set (y := fun i => x i / dt).
  assert (Hy : solves n A y (mvec nv Dm U1)).
  { intros i Hi. rewrite AG by auto. specialize (Hx i Hi).
    assert (E : forall c, mvec n G y c = mvec n G x c / dt). { intros c. unfold mvec, zsum, y. unfold Rdiv. rewrite <- sumR_scal_r. apply sumR_ext. intros; ring. }
    assert (S : mvec nv Dm U1 i - mvec nv Dm (mvec n G x) i = 0).
    { unfold mvec at 1 2. unfold zsum. rewrite <- sumR_minus. rewrite (sumR_ext _ (fun c => - (w c * (G c i * (U1 c - mvec n G x c))))).
      - rewrite sumR_opp. unfold zsum in Hx. rewrite Hx. ring.
      - intros c Hc. apply zrange_In in Hc. rewrite HA by auto. ring. }
    assert (S2 : mvec nv Dm (mvec n G y) i = mvec nv Dm (mvec n G x) i / dt).
    { unfold mvec at 1 3. unfold zsum, Rdiv. rewrite <- sumR_scal_r. apply sumR_ext. intros c _. rewrite E. unfold Rdiv. ring. }
    rewrite S2. replace (dt * (mvec nv Dm (mvec n G x) i / dt)) with (mvec nv Dm (mvec n G x) i) by (field; exact Hdt). lra. }
  destruct refp.
  - exists (fun i => y i - y 0%Z * z i). intros i Hi. rewrite Hbv by auto. cbn [andb]. destruct (Z.eqb_spec i 0) as [->|Hne].
    + unfold mvec, zsum. rewrite (sumR_single _ _ 0%Z); [|apply zrange_NoDup|apply zrange_In; lia|].
      * unfold pin. cbn. rewrite Hz0. ring.
      * intros l _ Hl. unfold pin. rewrite Z.eqb_refl. cbn [orb]. replace (0 =? l)%Z with false by lia. ring.
    + rewrite <- (Hy i Hi). transitivity (mvec n A y i - y 0%Z * mvec n A z i); [|rewrite Null by auto; ring].
      unfold mvec, zsum. rewrite <- sumR_scal, <- sumR_minus. apply sumR_ext. intros l Hl. apply zrange_In in Hl. unfold pin. replace (i =? 0)%Z with false by lia. cbn [orb].
      destruct (Z.eqb_spec l 0) as [->|]; [|ring]. replace (i =? 0)%Z with false by lia. rewrite Hz0. ring.
  - exists y. intros i Hi. rewrite (Hy i Hi), Hbv by auto. reflexivity.
Qed.

(** The forces that cancel the velocity of a given field. *)
Lemma forces_solvable nv nf (w : Z -> R) (E H : mat) (BNH : mat) dt (U : vec) : (0 <= nf)%Z -> dt <> 0 -> (forall c, (0 <= c < nv)%Z -> 0 < w c) ->
  (forall r c, (0 <= c < nv)%Z -> E r c = w c * H c r) -> (forall c j, (0 <= c < nv)%Z -> BNH c j = dt * H c j) ->
  exists x, solves nf (mmul nv E BNH) x (vscale (-1) (mvec nv E U)).
Proof.
  intros Hn Hdt Hw HE HB. destruct (normal_solvable nv w H Hw nf Hn U) as (x & Hx). exists (fun i => - x i / dt). intros r Hr. rewrite mvec_mmul.
  specialize (Hx r Hr). unfold vscale.
  assert (X : forall c, (0 <= c < nv)%Z -> mvec nf BNH (fun i => - x i / dt) c = - mvec nf H x c).
  { intros c Hc. unfold mvec, zsum. rewrite <- sumR_opp. apply sumR_ext. intros j _. rewrite HB by auto. field. exact Hdt. }
  assert (Y : mvec nv E U r + mvec nv E (mvec nf BNH (fun i => - x i / dt)) r = 0).
  { rewrite <- Hx. unfold mvec at 1 2. unfold zsum. rewrite <- sumR_plus. apply sumR_ext. intros c Hc. apply zrange_In in Hc. rewrite (X c Hc), HE by auto. ring. }
  lra.
Qed.

(** * The coupled solver *)
Section Coupled.
Variables (m : mesh) (D : dec) (P : nspar) (types : Z -> Z -> bctype) (values : Z -> Z -> R) (name : string) (bodies : list (body * list (list R))).
Variables (t0 : R) (n0 : Z) (U0 p0 : vec) (O : ibops) (s0 : nsstate).
Hypotheses (Hset : mesh_setup m D) (Hb : bc_fits m types) (Hbo : bodies_ok m D bodies) (Hmin : periodic_min m 3) (Hneu : no_normal_neumann m types) (Hu : undriven m types values).
Hypotheses (Hbn : p_bn P = 1%Z) (Hdt : 0 < p_dt P) (Hc : 0 <= p_dimp P * p_nu P).
Hypothesis HI : ib_init m D P types values name bodies t0 n0 U0 p0 = Ok (O, s0).
Let F : mfacts m D := setup_facts _ _ Hset.
Local Notation nv := (n_velocity m).
Variable conv : boundary -> vec -> res vec.
Variables vs ps : vec -> vec -> vec.
Hypotheses (Hv : exact_solver nv (o_A (ib_ns O)) vs) (Hp : exact_solver (ib_n O) (o_DBNG (ib_ns O)) ps).
Let Lay := nest_layout (nranks D) (pressure_l D) (bp_nLclAllProcs (m_dim m) (map fst bodies)).
Let zp : Z -> R := fun r => match nthZ Lay r with Some (b, _) => if (b =? 0)%Z then 1 else 0 | None => 0 end.

Lemma coupled_exact_at s : (exists h, boundary_after m D types values ([OpICs U0] ++ h) (s_bc s)) -> coupled_exact_step m D P O conv vs ps s.
Proof.
  intros (h1 & HB) rhs1 s1 rhs2 R1 R2.
  pose proof (ib_adjoint m D P types values name bodies t0 n0 U0 p0 O s0 Hset Hb Hbo Hmin Hneu HI) as Hadj.
  destruct (ib_init_inv m D P types values name bodies Hset Hb _ _ _ _ _ _ HI) as (B & HB0 & EO & _).
  destruct (ib_createOperators_inv m D P name bodies _ _ EO) as (d & g & l & E & H & BN & Ed & Eg & El & EE & EB & EOO).
  rewrite (createDivergence_ok m D types values false [OpICs U0] B F Hb HB0) in Ed. injection Ed as <-.
  rewrite (createLaplacian_ok m D types values [OpICs U0] B F Hb HB0) in El. injection El as <-.
  rewrite Hbn in EB. cbv zeta in EOO. fold Lay in EOO.
  assert (En : ib_n O = (n_pressure m + n_forces m bodies)%Z) by (rewrite EOO; reflexivity).
  split.
  - refine (Hv (s_U s) rhs1 _). destruct (injective_solvable nv (o_A (ib_ns O)) (nv_nonneg m D Hset)) with (b := rhs1) as (x & Hx); [|exists x; exact Hx].
    intros x Hx. assert (EA : o_A (ib_ns O) = mshift (mscale (- p_dimp P * p_nu P) (entry (op_log (op_of m D types values (lap_rows m D) [OpICs U0])))) (1 / p_dt P)) by (rewrite EOO; reflexivity).
    rewrite EA in Hx. refine (momentum_same m D P types values Hset Hb [OpICs U0] _ x (fun _ => 0) (fun _ => 0) (fun _ => 0) (ics_one U0) Hmin Hc Hdt eq_refl _ Hx _).
    + intros ? ?; reflexivity.
    + intros i _. apply sumR_zero. intros; ring.
  - refine (Hp (s_dP s) rhs2 _).
    assert (HB1 : exists h, boundary_after m D types values ([OpICs U0] ++ h) (s_bc s1)).
    { unfold rhs_velocity in R1. cbv zeta in R1. repeat (apply bind_ok_inv in R1; let a := fresh "q" in destruct R1 as (a & ? & R1)).
      injection R1 as _ <-. cbn [s_bc]. match goal with X : bc_call _ _ _ _ = Ok _ |- _ => pose proof (bc_call_inv m D types values _ _ _ _ F Hb HB X) as HB1 end.
      rewrite <- app_assoc in HB1. eexists. exact HB1. }
    destruct HB1 as (h & HB1).
    assert (EM : o_DBNG (ib_ns O) = if p_refp P then pin (mmul nv (ib_D O) (o_BNG (ib_ns O))) else mmul nv (ib_D O) (o_BNG (ib_ns O))) by (rewrite EOO; reflexivity).
    rewrite EM. apply (projection_solvable nv (ib_n O) (volume m D) zp (o_G (ib_ns O)) (ib_D O) (o_BNG (ib_ns O)) (p_dt P) (p_refp P) (vs (s_U s) rhs1) rhs2); auto; try lra.
    + pose proof (np_pos m D Hset). pose proof (lay_len m D bodies Hset Hbo) as LL. pose proof (lay_head m D bodies Hset Hbo) as LH. apply nthZ_Some_range in LH. lia.
    + intros. now apply volume_pos.
    + intros c j Hcc Hj. rewrite EOO. cbn [ib_ns o_BNG o_G]. now apply (bn_one _ _ _ _ _ _ EB).
    + unfold zp, Lay. now rewrite (lay_head m D bodies Hset Hbo).
    + intros c Hcc. rewrite En, EOO. cbn [ib_D].
      rewrite (lay_sum m D bodies Hset Hbo (fun u => if (fst u =? 0)%Z then entry (op_log (op_of m D types values (div_rows m D false) [OpICs U0])) (snd u) c else 0)).
      * cbn [fst snd Z.eqb]. rewrite (zsum_ext (fun _ => 0) (fun _ => 0 * 0)) by (intros; ring).
        assert (Z0 : zsum (fun _ : Z => 0 * 0) 0 (n_forces m bodies) = 0) by (apply sumR_zero; intros; ring). rewrite Z0, Rplus_0_r.
        apply div_column_sum; auto; [apply ics_one|now apply min_three_two].
      * intros i [b0 k0] Ei. unfold zp, nest_rows. fold Lay in Ei. rewrite Ei. cbn [fst snd]. destruct (b0 =? 0)%Z; [apply Rmult_1_l|apply Rmult_0_l].
    + intros i Hi. unfold ib_assembleRHSPoisson in R2. apply bind_ok_inv in R2. destruct R2 as (c & Ec & R2). injection R2 as <-.
      assert (Eo : o_D (ib_ns O) = op_of m D types values (div_rows m D false) [OpICs U0]) by (rewrite EOO; reflexivity).
      rewrite Eo in Ec. pose proof (undriven_correction m D types values F Hb Hu _ _ _ _ _ (ics_one U0) HB1 Ec) as C0.
      assert (V : forall j, match nthZ (ib_lay O) j with Some (b, k) => if (b =? 0)%Z then mvec nv (ib_D O) (vs (s_U s) rhs1) j + c k else mvec nv (ib_D O) (vs (s_U s) rhs1) j
         | None => mvec nv (ib_D O) (vs (s_U s) rhs1) j end = mvec nv (ib_D O) (vs (s_U s) rhs1) j).
      { intros j. destruct (nthZ (ib_lay O) j) as [[b0 k0]|]; auto. destruct (b0 =? 0)%Z; auto. rewrite C0. apply Rplus_0_r. }
      destruct (p_refp P); cbn [andb]; [destruct (i =? 0)%Z; auto|]; apply V.
Qed.
Lemma coupled_exact k s : run_steps (ib_advance m D P O conv vs ps) k s0 = Ok s -> coupled_exact_step m D P O conv vs ps s.
Proof. intros Hst. apply coupled_exact_at. exact (ib_steps_boundary _ _ _ _ _ _ _ Hset Hb _ _ _ _ _ _ _ _ _ _ _ HI Hst). Qed.
End Coupled.

(** * The decoupled solver *)
Section Decoupled.
Variables (m : mesh) (D : dec) (P : nspar) (types : Z -> Z -> bctype) (values : Z -> Z -> R) (name : string) (bodies : list (body * list (list R))).
Variables (t0 : R) (n0 : Z) (U0 p0 : vec) (O : nsops) (a0 : nsstate).
Hypotheses (Hset : mesh_setup m D) (Hb : bc_fits m types) (Hbo : bodies_ok m D bodies) (Hmin : periodic_min m 3) (Hneu : no_normal_neumann m types) (Hu : undriven m types values).
Hypotheses (Hbn : p_bn P = 1%Z) (Hdt : 0 < p_dt P) (Hc : 0 <= p_dimp P * p_nu P).
Hypothesis HI : ns_init m D P types values t0 n0 U0 p0 = Ok (O, a0).
Let F : mfacts m D := setup_facts _ _ Hset.
Local Notation nv := (n_velocity m).
Local Notation np := (n_pressure m).
Variable conv : boundary -> vec -> res vec.
Variables vs ps : vec -> vec -> vec.
Hypotheses (Hv : exact_solver nv (o_A O) vs) (Hp : exact_solver np (o_DBNG O) ps).

Lemma decoupled_exact nf X rf fs x : (exists h, boundary_after m D types values ([OpICs U0] ++ h) (s_bc (x_ns x))) ->
  (forall U g, solves nf (di_EBNH X) (fs g (rf U)) (rf U)) -> decoupled_exact_step m D P O X nf conv rf vs ps fs x.
Proof.
  intros (h1 & HB) Hf rhs0 s1 rhs2 R1. cbv zeta. set (rhs1 := vaxpy rhs0 1 _). set (U1 := vs _ rhs1). set (df := fs _ (rf U1)). set (U2 := vaxpy U1 1 _). intros R2.
  pose proof (ns_adjoint m D P types values t0 n0 U0 p0 O a0 Hset Hb Hmin Hneu HI) as Hadj.
  destruct (ns_init_inv _ _ _ _ _ _ _ _ _ _ _ F Hb HI) as (B & HB0 & EO & _).
  destruct (createOperators_inv _ _ _ _ _ EO) as (d & g & l & BN & Ed & Eg & El & EB & EOO).
  rewrite (createDivergence_ok m D types values false [OpICs U0] B F Hb HB0) in Ed. injection Ed as <-.
  rewrite (createLaplacian_ok m D types values [OpICs U0] B F Hb HB0) in El. injection El as <-. rewrite Hbn in EB.
  split; [|split; [apply Hf|]].
  - refine (Hv _ rhs1 _). destruct (injective_solvable nv (o_A O) (nv_nonneg m D Hset)) with (b := rhs1) as (y & Hy); [|exists y; exact Hy].
    intros y Hy. assert (EA : o_A O = mshift (mscale (- p_dimp P * p_nu P) (entry (op_log (op_of m D types values (lap_rows m D) [OpICs U0])))) (1 / p_dt P)) by (rewrite EOO; reflexivity).
    rewrite EA in Hy. refine (momentum_same m D P types values Hset Hb [OpICs U0] _ y (fun _ => 0) (fun _ => 0) (fun _ => 0) (ics_one U0) Hmin Hc Hdt eq_refl _ Hy _).
    + intros ? ?; reflexivity.
    + intros i _. apply sumR_zero. intros; ring.
  - refine (Hp _ rhs2 _).
    assert (HB1 : exists h, boundary_after m D types values ([OpICs U0] ++ h) (s_bc s1)).
    { unfold rhs_velocity in R1. cbv zeta in R1. repeat (apply bind_ok_inv in R1; let a := fresh "q" in destruct R1 as (a & ? & R1)).
      injection R1 as _ <-. cbn [s_bc]. match goal with X : bc_call _ _ _ _ = Ok _ |- _ => pose proof (bc_call_inv m D types values _ _ _ _ F Hb HB X) as HB1 end.
      rewrite <- app_assoc in HB1. eexists. exact HB1. }
    destruct HB1 as (h & HB1).
    assert (EM : o_DBNG O = if p_refp P then pin (mmul nv (entry (op_log (o_D O))) (o_BNG O)) else mmul nv (entry (op_log (o_D O))) (o_BNG O)) by (rewrite EOO; reflexivity).
    rewrite EM. apply (projection_solvable nv np (volume m D) (fun _ => 1) (o_G O) (entry (op_log (o_D O))) (o_BNG O) (p_dt P) (p_refp P) U2 rhs2); auto; try lra.
    + exact (np_pos m D Hset).
    + intros. now apply volume_pos.
    + intros c j Hcc Hj. rewrite EOO. cbn [o_BNG o_G]. now apply (bn_one _ _ _ _ _ _ EB).
    + intros c Hcc. rewrite EOO. cbn [o_D]. rewrite (zsum_ext _ (fun r => entry (op_log (op_of m D types values (div_rows m D false) [OpICs U0])) r c)) by (intros; ring).
      apply div_column_sum; auto; [apply ics_one|now apply min_three_two].
    + intros i Hi. unfold assembleRHSPoisson in R2. apply bind_ok_inv in R2. destruct R2 as (c & Ec & R2). injection R2 as <-.
      assert (Eo : o_D O = op_of m D types values (div_rows m D false) [OpICs U0]) by (rewrite EOO; reflexivity).
      rewrite Eo in Ec. pose proof (undriven_correction m D types values F Hb Hu _ _ _ _ _ (ics_one U0) HB1 Ec) as C0.
      destruct (p_refp P); cbn [andb]; [destruct (i =? 0)%Z; auto|]; unfold vaxpy at 1; rewrite C0, Rplus_0_l, Rmult_1_l; reflexivity.
Qed.

Lemma extra_facts B X : createExtraOperators m D B P O name bodies = Ok X ->
  (forall r c, (0 <= c < nv)%Z -> di_E X r c = volume m D c * di_H X c r) /\ (forall c j, (0 <= c < nv)%Z -> di_BNH X c j = p_dt P * di_H X c j) /\ di_EBNH X = mmul nv (di_E X) (di_BNH X).
Proof.
  intros EX. destruct (extra_inv m D P _ _ _ _ _ EX) as (E & H & BN & EI & EB & ->). rewrite Hbn in EB. cbn [di_E di_H di_BNH di_EBNH]. split; [|split; [|reflexivity]].
  - exact (spread_adjoint m D name bodies Hset _ _ _ EI).
  - intros c j Hcc. now apply (bn_one _ _ _ _ _ _ EB).
Qed.

(** Fixed bodies: the forces can always be found. *)
Lemma fixed_forces B X fs : createExtraOperators m D B P O name bodies = Ok X -> exact_solver (n_forces m bodies) (di_EBNH X) fs ->
  forall U g, solves (n_forces m bodies) (di_EBNH X) (fs g (d_assembleRHSForces m X U)) (d_assembleRHSForces m X U).
Proof.
  intros EX Hf U g. refine (Hf g _ _). destruct (extra_facts B X EX) as (HE & HBn & ->).
  refine (forces_solvable nv (n_forces m bodies) (volume m D) (di_E X) (di_H X) (di_BNH X) (p_dt P) U _ _ _ HE HBn); try lra.
  - unfold n_forces. rewrite <- (body_layout_len (nranks D) (m_dim m) (map fst bodies)); [apply lenZ_nonneg|apply Hbo..].
  - intros. now apply volume_pos.
Qed.
(** Forces that are all felt can be found for any velocity of the body. *)
Lemma felt_forces B X rhs fs : createExtraOperators m D B P O name bodies = Ok X -> forces_felt m (n_forces m bodies) X -> exact_solver (n_forces m bodies) (di_EBNH X) fs ->
  forall g, solves (n_forces m bodies) (di_EBNH X) (fs g rhs) rhs.
Proof.
  intros EX Hff Hf g. refine (Hf g _ _). apply injective_solvable.
  - unfold n_forces. rewrite <- (body_layout_len (nranks D) (m_dim m) (map fst bodies)); [apply lenZ_nonneg|apply Hbo..].
  - intros x Hx. apply Hff. intros i Hi. destruct (extra_facts B X EX) as (HE & HBn & EB). rewrite EB in Hx.
    assert (Z0 : mvec (n_forces m bodies) (di_H X) (fun _ => 0) i = 0) by (apply sumR_zero; intros; ring). rewrite <- Z0.
    refine (kernel_still nv _ (volume m D) (di_H X) (di_E X) (di_BNH X) (p_dt P) 1 false x (fun _ => 0) (fun _ => 0) _ _ _ _ _ Hx _ i Hi); try lra.
    + intros. now apply volume_pos.
    + intros r c _ Hcc. rewrite (HE r c Hcc). ring.
    + intros c j Hcc _. now apply HBn.
    + intros k _. apply sumR_zero. intros; ring.
Qed.
End Decoupled.

(** * Points that are far apart *)
Lemma far_apart_felt m D P types values O name bodies h K w hist B X :
  mesh_setup m D -> uniform_around m h w bodies -> bodies_ok m D bodies -> getKernel name = Ok (K, w) -> bc_fits m types -> boundary_after m D types values hist B -> wide_enough m w ->
  (forall b i X, located bodies b i X -> clear m h (radius name) X) -> far_apart m h (radius name) bodies ->
  createExtraOperators m D B P O name bodies = Ok X -> forces_felt m (n_forces m bodies) X.
Proof.
  intros Hs Hu Hbo HK Hb HB Hw Hcl Hfar EX d Hd r Hr. pose proof (setup_facts _ _ Hs) as F. pose proof (mf_dim _ _ F) as Hdim.
  destruct (extra_inv m D P _ _ _ _ _ EX) as (E & H & BN & EI & EB & EXX). assert (EH : di_H X = H) by (rewrite EXX; reflexivity). rewrite EH in Hd. clear EXX EH EX X.
  set (rows := body_layout (nranks D) (m_dim m) (map fst bodies)) in *.
  assert (Ln : lenZ rows = n_forces m bodies) by (unfold rows, n_forces; apply body_layout_len; apply Hbo).
  assert (Row : forall q, (0 <= q < n_forces m bodies)%Z -> exists b i c X, nthZ rows q = Some (b, i, c) /\ located bodies b i X).
  { intros q Hq. destruct (nthZ_in_range rows q ltac:(lia)) as ([[b i] c] & Eq). destruct (bodies_pos m D bodies Hbo q b i c Eq) as (X & Hl). eauto 6. }
  destruct (Row r Hr) as (b & i & c & X & Er & Hl).
  pose proof (fun q b' i' c' X' id f p => ib_entries m D h Hs name K w HK bodies Hu B types values hist Hb HB Hw Hbo E H EI q b' i' c' X' id f p) as Ent.
  assert (Dis : forall id q, (0 <= id < n_velocity m)%Z -> (0 <= q < n_forces m bodies)%Z -> q <> r -> H id r * H id q = 0).
  { intros id q Hid Hq Hne. destruct (Row q Hq) as (b' & i' & c' & X' & Eq & Hl'). destruct (velocity_ids m D id F Hid) as (f & p & Ei).
    rewrite (proj1 (Ent q b' i' c' X' id f p Eq Hl' Ei)), (proj1 (Ent r b i c X id f p Er Hl Ei)).
    destruct (Z.eqb_spec f c) as [Ec|]; [|ring]. destruct (Z.eqb_spec f c') as [Ec'|]; [|ring]. subst c c'.
    assert (Nbi : (b, i) <> (b', i')). { intros Eb. injection Eb as <- <-. apply Hne. refine (nthZ_NoDup_inj rows q r (b, i, f) _ Eq Er). apply body_layout_NoDup. apply Hbo. }
    destruct (Hfar b i X b' i' X' Hl Hl' Nbi) as (e & He & Hdist). pose proof (proj1 Hu e He) as Hpe.
    assert (Out : radius name * h e <= Rabs (xc X e - crd m f e (pc p e)) \/ radius name * h e <= Rabs (xc X' e - crd m f e (pc p e))).
    { destruct (Rle_dec (radius name * h e) (Rabs (xc X e - crd m f e (pc p e)))) as [|N1]; [auto|]. destruct (Rle_dec (radius name * h e) (Rabs (xc X' e - crd m f e (pc p e)))) as [|N2]; [auto|].
      exfalso. apply Rnot_le_lt in N1, N2. apply Rabs_def2 in N1. apply Rabs_def2 in N2. revert Hdist. apply Rlt_not_le. apply Rabs_def1; lra. }
    assert (Zk : forall Y, radius name * h e <= Rabs (xc Y e - crd m f e (pc p e)) -> kernel_at m K h f Y p = 0).
    { intros Y HY. pose proof (kernel_out name K w (xc Y e - crd m f e (pc p e)) (h e) HK Hpe HY) as Z0. unfold kernel_at. destruct (Z.eqb_spec (m_dim m) 3).
      - assert (e = 0 \/ e = 1 \/ e = 2)%Z as [->|[->| ->]] by lia; rewrite Z0; ring.
      - assert (e = 0 \/ e = 1)%Z as [->| ->] by lia; rewrite Z0; ring. }
    destruct Out as [Q|Q]; rewrite (Zk _ Q); ring. }
  assert (One : zsum (fun id => E r id) 0 (n_velocity m) = 1).
  { assert (Ha : holds_affine m D (fun _ => 1) (fun _ _ => 0) (fun _ => 1)).
    { intros id f p _. unfold affine. assert (Z0 : zsum (fun d0 => 0 * crd m f d0 (pc p d0)) 0 (m_dim m) = 0) by (apply sumR_zero; intros; ring). rewrite Z0. ring. }
    pose proof (ib_interpolates m D h Hs name K w HK bodies Hu B types values hist Hb HB Hw Hbo E H EI r b i c X _ _ _ Er Hl (Hcl _ _ _ Hl) Ha) as Q.
    unfold mvec in Q. rewrite (zsum_ext _ (fun id => E r id)) in Q by (intros; ring). rewrite Q. unfold affine.
    assert (Z0 : zsum (fun d0 => 0 * xc X d0) 0 (m_dim m) = 0) by (apply sumR_zero; intros; ring). rewrite Z0. ring. }
  destruct (Req_dec (d r) 0) as [|Nd]; [assumption|exfalso].
  assert (Zr : forall id, (0 <= id < n_velocity m)%Z -> H id r = 0).
  { intros id Hid. specialize (Hd id Hid). assert (S : H id r * mvec (n_forces m bodies) H d id = H id r * H id r * d r).
    { unfold mvec, zsum. rewrite <- sumR_scal. rewrite (sumR_single _ _ r); [ring|apply zrange_NoDup|apply zrange_In; lia|].
      intros q Hq Hqr. apply zrange_In in Hq. rewrite <- Rmult_assoc, (Dis id q Hid Hq Hqr). ring. }
    rewrite Hd, Rmult_0_r in S. symmetry in S. apply Rmult_integral in S. destruct S as [S|S]; [|contradiction]. apply Rmult_integral in S. tauto. }
  assert (Z1 : zsum (fun id => E r id) 0 (n_velocity m) = 0).
  { apply sumR_zero. intros id Hid. apply zrange_In in Hid. destruct (velocity_ids m D id F Hid) as (f & p & Ei). rewrite (proj2 (Ent r b i c X id f p Er Hl Ei)), (Zr id Hid). ring. }
  lra.
Qed.

(** * A solver for all matrices *)
Lemma zfind (f : Z -> bool) n : { i | (0 <= i < n)%Z /\ f i = true } + { forall i, (0 <= i < n)%Z -> f i = false }.
Proof.
  destruct (find f (zrange 0 n)) as [i|] eqn:E.
  - left. exists i. apply find_some in E. destruct E as [Hi Hf]. apply zrange_In in Hi. auto.
  - right. intros i Hi. apply (find_none f _ E). now apply zrange_In.
Qed.
Lemma inverse_of (n : Z) (A : mat) (c : nat) :
  { M : mat | forall x i, (0 <= i < n)%Z -> mvec (Z.of_nat c) A (mvec n M (mvec (Z.of_nat c) A x)) i = mvec (Z.of_nat c) A x i }.
Proof.
  induction c as [|c (M & HM)].
  - exists (fun _ _ => 0). intros. reflexivity.
  - replace (Z.of_nat (S c)) with (Z.of_nat c + 1)%Z by lia. assert (Hk : (0 <= Z.of_nat c)%Z) by lia. set (k := Z.of_nat c) in *. clearbody k.
    assert (Sn : forall x i, mvec (k + 1) A x i = mvec k A x i + A i k * x k) by (intros; unfold mvec; now rewrite zsum_snoc').
    set (a := fun i => A i k). set (r := fun i => a i - mvec k A (mvec n M a) i).
    destruct (zfind (fun i => negb (if Req_EM_T (r i) 0 then true else false)) n) as [(i0 & Hi0 & Hr)|Hno].
    + assert (Hr0 : r i0 <> 0) by (destruct (Req_EM_T (r i0) 0); [discriminate|auto]). clear Hr.
      set (phi := fun j => ((if (i0 =? j)%Z then 1 else 0) - mmul k A M i0 j) / r i0).
      assert (Phi : forall b, zsum (fun j => phi j * b j) 0 n = (b i0 - mvec k A (mvec n M b) i0) / r i0).
      { intros b. unfold phi. rewrite <- mvec_mmul. unfold mvec, Rdiv.
        rewrite (zsum_ext _ (fun j => / r i0 * ((if (i0 =? j)%Z then 1 else 0) * b j) + (- / r i0) * (mmul k A M i0 j * b j))) by (intros; ring).
        unfold zsum. rewrite sumR_plus, !sumR_scal.
        assert (X : sumR (fun j => (if (i0 =? j)%Z then 1 else 0) * b j) (zrange 0 n) = b i0).
        { pose proof (mdiagonal_sum n (fun _ => 1) i0 (fun j _ => b j) 0%Z Hi0) as X. unfold mdiagonal, zsum in X. rewrite X. ring. }
        rewrite X. ring. }
      exists (fun l j => if (l =? k)%Z then phi j else M l j - mvec n M a l * phi j).
      intros x i Hi.
      set (b := mvec (k + 1) A x).
      set (f := zsum (fun j => phi j * b j) 0 n).
      assert (Hb : forall l, b l = mvec k A x l + a l * x k) by (intros; apply Sn).
      assert (Ab : forall v, (forall l, (0 <= l < n)%Z -> v l = b l) -> True) by auto. clear Ab.
      assert (AM : forall l, mvec k A (mvec n M b) l = mvec k A (mvec n M (mvec k A x)) l + x k * mvec k A (mvec n M a) l).
      { intros l. transitivity (mvec k A (vaxpy (mvec n M (mvec k A x)) (x k) (mvec n M a)) l); [|apply mvec_axpy].
        apply mvec_ext; auto. intros j _. transitivity (mvec n M (vaxpy (mvec k A x) (x k) a) j); [|apply mvec_axpy].
        apply mvec_ext; auto. intros j' _. rewrite Hb. unfold vaxpy. ring. }
      assert (Ef : f = x k).
      { unfold f. rewrite Phi, AM, (HM x i0 Hi0), Hb.
        replace (mvec k A x i0 + a i0 * x k - (mvec k A x i0 + x k * mvec k A (mvec n M a) i0)) with (x k * r i0) by (unfold r; ring). now field. }
      rewrite Sn.
      assert (E1 : mvec n (fun l j => if (l =? k)%Z then phi j else M l j - mvec n M a l * phi j) b k = x k).
      { unfold mvec at 1. rewrite (zsum_ext _ (fun j => phi j * b j)); [exact Ef|]. intros j _. now rewrite Z.eqb_refl. }
      assert (E2 : forall l, (0 <= l < k)%Z -> mvec n (fun l j => if (l =? k)%Z then phi j else M l j - mvec n M a l * phi j) b l
                                             = vaxpy (mvec n M b) (- x k) (mvec n M a) l).
      { intros l Hl. unfold mvec at 1. rewrite (zsum_ext _ (fun j => M l j * b j + - mvec n M a l * (phi j * b j))).
        - unfold zsum. rewrite sumR_plus, sumR_scal. fold (zsum (fun j => phi j * b j) 0 n). fold f. rewrite Ef. unfold vaxpy, mvec, zsum. ring.
        - intros j _. replace (l =? k)%Z with false by lia. ring. }
      rewrite E1. rewrite (mvec_ext k A A _ (vaxpy (mvec n M b) (- x k) (mvec n M a)) i); auto.
      rewrite mvec_axpy, AM, (HM x i Hi), Hb. fold (a i). ring.
    + assert (Hr : forall i, (0 <= i < n)%Z -> mvec k A (mvec n M a) i = a i).
      { intros i Hi. specialize (Hno i Hi). destruct (Req_EM_T (r i) 0) as [e|]; [unfold r in e; lra|discriminate]. }
      exists (fun l j => if (l =? k)%Z then 0 else M l j). intros x i Hi. rewrite Sn.
      set (b := mvec (k + 1) A x). assert (Hb : forall l, b l = mvec k A x l + a l * x k) by (intros; apply Sn).
      assert (E1 : mvec n (fun l j => if (l =? k)%Z then 0 else M l j) b k = 0).
      { unfold mvec. apply sumR_zero. intros. rewrite Z.eqb_refl. ring. }
      rewrite E1. rewrite (mvec_ext k A A _ (mvec n M b) i); auto.
      * assert (AM : mvec k A (mvec n M b) i = mvec k A (mvec n M (mvec k A x)) i + x k * mvec k A (mvec n M a) i).
        { transitivity (mvec k A (vaxpy (mvec n M (mvec k A x)) (x k) (mvec n M a)) i); [|apply mvec_axpy].
          apply mvec_ext; auto. intros j _. transitivity (mvec n M (vaxpy (mvec k A x) (x k) a) j); [|apply mvec_axpy].
          apply mvec_ext; auto. intros j' _. rewrite Hb. unfold vaxpy. ring. }
        rewrite AM, (HM x i Hi), (Hr i Hi), Hb. ring.
      * intros l Hl. unfold mvec. apply zsum_ext. intros j _. replace (l =? k)%Z with false by lia. reflexivity.
Qed.
Lemma exact_family n : (0 <= n)%Z -> exists solve : mat -> vec -> vec -> vec, forall A, exact_solver n A (solve A).
Proof.
  intros Hn. exists (fun A _ b => mvec n (proj1_sig (inverse_of n A (Z.to_nat n))) b). intros A g b (x & Hx) i Hi.
  destruct (inverse_of n A (Z.to_nat n)) as (M & HM). cbn [proj1_sig]. rewrite Z2Nat.id in HM by lia.
  rewrite <- (Hx i Hi). rewrite <- (HM x i Hi). apply mvec_ext; auto. intros l Hl. apply mvec_ext; auto. intros j Hj. symmetry. now apply Hx.
Qed.
