(** Immersed-boundary runs that are resumed with other solvers, or on another
    process grid. *)
From Coq Require Import Lia ZifyBool String List.
Import ListNotations.
From Verif Require Import Prelude ZSum RSum TypesModel GridModel GridSpec GridProof MeshProof
  IndexModel IndexSpec IndexProof BoundaryModel BoundarySpec BoundaryProof OperatorModel OperatorSpec OperatorProof BStateProof LapProof DivProof GradProof
  AdjProof SymProof MatModel BnModel NSModel NSSpec NSProof NSTotal NSPin BnSpec BnProof LinAlg UniqueProof ConvModel ConvSpec EnergySpec EnergyProof EnergyRun
  NameModel NameProof DriverModel DriverSpec DriverProof DriveProof RestartProof DecSpec DecProof DecConv ResumeSpec ResumeProof
  BodyModel BodySpec BodyProof DeltaModel DeltaSpec DeltaSum IbpmModel IbpmSpec IbpmProof IbpmStep IbpmDec IbpmMove
  IbOutModel IbOutSpec IbOutDrive IbOutSim IbOutLines IbOutProof IbOutDec IndepSpec IndepProof IndepRun IbGridSpec IbGridProof IbGridRun IbGridProps IbResumeSpec IbResumeDrive.
Local Open Scope R_scope.

Lemma begun_blank P s : begun P (blank s) = blank (begun P s).
Proof. reflexivity. Qed.
Definition blankd (x : dstate) : dstate := mkDS (blank (x_ns x)) (x_f x) (x_df x).
Definition short (s : nsstate) : Prop := (lenZ (s_conv s) <= 1 /\ lenZ (s_diff s) <= 1)%Z.
Lemma d_advance_blank m D P O X nf conv rf vs ps fs x : short (x_ns x) -> d_advance m D P O X nf conv rf vs ps fs (blankd x) = d_advance m D P O X nf conv rf vs ps fs x.
Proof.
  intros [L1 L2]. unfold d_advance, d_assembleRHSVelocity, blankd. cbn [x_ns x_f x_df]. cbv zeta.
  pose proof (rhs_blank (n_pressure m) m D P O conv (begun P (x_ns x)) L1 L2) as Q. unfold assembleRHSVelocity. unfold begun, blank in *. cbn [s_t s_ite s_U s_p s_dP s_conv s_diff s_bc] in *.
  rewrite Q. reflexivity.
Qed.
Lemma d_exact_blank m D P O X nf conv rf vs ps fs x : short (x_ns x) -> decoupled_exact_step m D P O X nf conv rf vs ps fs x -> decoupled_exact_step m D P O X nf conv rf vs ps fs (blankd x).
Proof.
  intros [L1 L2] H r w r2 E. unfold blankd in *. cbn [x_ns x_f x_df] in *. rewrite begun_blank, (rhs_blank _ _ _ _ _ _ (begun P (x_ns x)) L1 L2) in E. exact (H r w r2 E).
Qed.
Lemma ib_advance_blank m D P O conv vs ps s : short s -> ib_advance m D P O conv vs ps (blank s) = ib_advance m D P O conv vs ps s.
Proof.
  intros [L1 L2]. unfold ib_advance, advance_with. cbv zeta. pose proof (rhs_blank (ib_n O) m D P (ib_ns O) conv (begun P s) L1 L2) as Q.
  unfold begun, blank in *. cbn [s_t s_ite s_U s_p s_dP s_conv s_diff s_bc] in *. rewrite Q. reflexivity.
Qed.
Lemma ib_exact_blank m D P O conv vs ps s : short s -> coupled_exact_step m D P O conv vs ps s -> coupled_exact_step m D P O conv vs ps (blank s).
Proof. intros [L1 L2] H r w r2 E. rewrite begun_blank, (rhs_blank _ _ _ _ _ _ (begun P s) L1 L2) in E. exact (H r w r2 E). Qed.

(** Two vectors stored in the same order. *)
Lemma order_forces m D1 D2 bs1 bs2 f1 f2 : bodies_ok m D1 bs1 -> same_order m D1 D2 bs1 bs2 -> veq (n_forces m bs1) f1 f2 -> same_forces m D1 D2 bs1 bs2 f1 f2.
Proof.
  intros Hbo Ho Hv r1 r2 u E1 E2. rewrite <- Ho in E2. pose proof (nthZ_NoDup_inj _ _ _ _ (body_layout_NoDup _ _ _ (proj1 Hbo)) E1 E2) as <-.
  apply Hv. pose proof (nthZ_Some_range _ _ _ E1) as Rg. rewrite body_layout_len in Rg by apply Hbo. exact Rg.
Qed.

Section Two.
Context (m : mesh) (D1 D2 : dec) (types : Z -> Z -> bctype) (values : Z -> Z -> R).
Hypotheses (Hs1 : mesh_setup m D1) (Hs2 : mesh_setup m D2) (Hb : bc_fits m types) (Hmin : periodic_min m 3) (Himp : impermeable m types values).
Let F1 := setup_facts _ _ Hs1.
Let F2 := setup_facts _ _ Hs2.
Let Hnn : no_normal_neumann m types := impermeable_neumann m types values Hb Himp.
Local Notation nv := (n_velocity m).
Local Notation np := (n_pressure m).
Local Notation conv1 := (convection m D1).
Local Notation conv2 := (convection m D2).
Let Hcv := conv_agree_impermeable m D1 D2 types values Hs1 Hs2 Hb Himp.
Context (P : nspar) (t0 : R) (n0 : Z) (U1 U2 q1 q2 : vec) (ops1 ops2 : nsops) (a1 a2 : nsstate).
Hypotheses (HI1 : ns_init m D1 P types values t0 n0 U1 q1 = Ok (ops1, a1)) (HI2 : ns_init m D2 P types values t0 n0 U2 q2 = Ok (ops2, a2)).
Hypothesis HU : same_velocity m D1 D2 U1 U2.
Hypotheses (Hc : 0 <= p_dimp P * p_nu P) (Hdt : 0 < p_dt P) (Hbn : p_bn P = 1%Z).
Local Notation drel := (dgrel m D1 D2 types values P U1 U2).
Local Notation frel := (flow_rel m D1 D2 types values U1 U2).
Local Notation vv := (vv m D1 D2).
Local Notation pp := (pp m D1 D2).

(** Related states; with short histories the histories need not be related. *)
Definition wrel (s1 s2 : nsstate) : Prop := drel s1 s2 \/ (short s1 /\ short s2 /\ drel (blank s1) (blank s2)).
Lemma wrel_flow s1 s2 : wrel s1 s2 -> ResumeSpec.same_flow m D1 D2 (p_refp P) s1 s2.
Proof.
  assert (Q : forall s1 s2, drel s1 s2 -> ResumeSpec.same_flow m D1 D2 (p_refp P) s1 s2).
  { intros u1 u2 [(T & I & U & _) (a & Ha & Hp)]. split; [exact T|]. split; [exact I|]. split; [now apply (vv_same m D1 D2 Hs1 Hs2)|].
    destruct (p_refp P); [rewrite (Ha eq_refl) in Hp; apply (pp_same m D1 D2 Hs1 Hs2); intros q Sq; rewrite (Hp q Sq); ring|exists a; now apply (pp_same m D1 D2 Hs1 Hs2)]. }
  intros [H|(_ & _ & H)]; [exact (Q _ _ H)|]. exact (Q _ _ H).
Qed.
(** What a file of a state of the first grid gives on the second one. *)
Lemma read_frel s1 s2 B1 : no_convective m types -> boundary_after m D1 types values [OpICs U1] B1 -> fresh m D1 types values s1 ->
  s_t s1 = s_t s2 -> s_ite s1 = s_ite s2 -> same_velocity m D1 D2 (s_U s1) (s_U s2) ->
  Forall2 (veq nv) (s_conv s1) (s_conv s2) -> Forall2 (veq nv) (s_diff s1) (s_diff s2) ->
  boundary_after m D2 types values ([OpICs U2] ++ [OpICs (s_U s2)]) (s_bc s2) -> D1 = D2 \/ short s1 ->
  frel s1 s2 \/ (short s1 /\ short s2 /\ frel (blank s1) (blank s2)).
Proof.
  intros Hnc HB1 Hf St Si SU Sc Sd HB2 Hor.
  assert (SB : brel m D1 D2 types values U1 U2 (s_bc s1) (s_bc s2)).
  { exists [OpICs (s_U s1)], [OpICs (s_U s2)]. split; [repeat constructor; exact SU|]. split; [|exact HB2]. exact (fresh_history m D1 types values s1 U1 B1 F1 Hb Hnc Hf HB1). }
  pose proof (proj1 (vv_same m D1 D2 Hs1 Hs2 _ _) SU) as VU. destruct Hor as [Hd|[L1 L2]].
  - left. assert (G : forall l l', Forall2 (veq nv) l l' -> Forall2 vv l l').
    { intros l l' H. induction H as [|x y l l' Hxy H IH]; constructor; auto. apply (vv_same m D1 D2 Hs1 Hs2). rewrite <- Hd. intros i1 i2 f x0 H1 H2.
      pose proof (ResumeProof.layout_range _ _ _ _ F1 H1) as R1. rewrite (ResumeProof.layout_unique _ _ _ _ _ F1 H1 H2). apply Hxy. exact R1. }
    repeat (split; [assumption|]). split; [now apply G|]. split; [now apply G|exact SB].
  - right. split; [split; assumption|]. split; [split; [rewrite <- (Forall2_lenZ _ _ _ Sc)|rewrite <- (Forall2_lenZ _ _ _ Sd)]; assumption|].
    assert (Z0 : forall l l' : list vec, Forall2 (veq nv) l l' -> Forall2 vv (map (fun _ => (fun _ => 0) : vec) l) (map (fun _ => (fun _ => 0) : vec) l')).
    { intros l l' H. induction H; cbn [map]; constructor; auto. intros ? _. reflexivity. }
    unfold blank. repeat split; cbn [s_t s_ite s_U s_conv s_diff s_bc]; auto.
Qed.

(** ** The decoupled solver *)
Section Step.
Context (name : string) (bs1 bs2 : list (body * list (list R))) (X1 X2 : dops) (B1 B2 : boundary).
Hypotheses (Hbo1 : bodies_ok m D1 bs1) (Hbo2 : bodies_ok m D2 bs2) (Hsm : same_points bs1 bs2).
Hypotheses (EX1 : createExtraOperators m D1 B1 P ops1 name bs1 = Ok X1) (EX2 : createExtraOperators m D2 B2 P ops2 name bs2 = Ok X2).
Local Notation nf := (n_forces m bs1).
Hypothesis RH : mrel (SV m) (iv m D1) (iv m D2) (SF m bs1) (jf m D1 bs1) (jf m D2 bs2) (di_H X1) (di_H X2).
Context (rf1 rf2 : vec -> vec) (vs1 vs2 ps1 ps2 fs1 fs2 : vec -> vec -> vec).
Hypothesis Hrf : forall u1 u2, vv u1 u2 -> ff m D1 D2 bs1 bs2 (rf1 u1) (rf2 u2).
Local Notation step1 := (d_advance m D1 P ops1 X1 nf conv1 rf1 vs1 ps1 fs1).
Local Notation step2 := (d_advance m D2 P ops2 X2 nf conv2 rf2 vs2 ps2 fs2).
Local Notation good1 := (decoupled_exact_step m D1 P ops1 X1 nf conv1 rf1 vs1 ps1 fs1).
Local Notation good2 := (decoupled_exact_step m D2 P ops2 X2 nf conv2 rf2 vs2 ps2 fs2).
Local Notation sprel f1 f2 := (vv (mvec nf (di_H X1) f1) (mvec nf (di_H X2) f2)).
Lemma dwstep x1 x2 y1 y2 : wrel (x_ns x1) (x_ns x2) -> sprel (x_f x1) (x_f x2) -> good1 x1 -> good2 x2 -> step1 x1 = Ok y1 -> step2 x2 = Ok y2 ->
  drel (x_ns y1) (x_ns y2) /\ sprel (x_df y1) (x_df y2) /\ x_f y1 = vaxpy (x_f x1) 1 (x_df y1) /\ x_f y2 = vaxpy (x_f x2) 1 (x_df y2).
Proof.
  intros HW SH G1 G2 E1 E2.
  pose proof (dgstep m D1 D2 types values Hs1 Hs2 Hb Hmin Hnn P t0 n0 U1 U2 q1 q2 ops1 ops2 a1 a2 HI1 HI2 HU Hc Hdt Hbn conv1 conv2 Hcv name bs1 bs2 X1 X2 B1 B2 Hbo1 Hbo2 Hsm EX1 EX2 RH
    rf1 rf2 vs1 vs2 ps1 ps2 fs1 fs2 Hrf) as Q.
  destruct HW as [HW|(L1 & L2 & HW)]; [exact (Q _ _ _ _ HW SH G1 G2 E1 E2)|].
  rewrite <- d_advance_blank in E1, E2 by assumption. exact (Q (blankd x1) (blankd x2) _ _ HW SH (d_exact_blank _ _ _ _ _ _ _ _ _ _ _ _ L1 G1) (d_exact_blank _ _ _ _ _ _ _ _ _ _ _ _ L2 G2) E1 E2).
Qed.
Lemma dwrun k : forall x1 x2 y1 y2, wrel (x_ns x1) (x_ns x2) -> sprel (x_f x1) (x_f x2) -> along step1 good1 x1 k -> along step2 good2 x2 k ->
  run_steps step1 k x1 = Ok y1 -> run_steps step2 k x2 = Ok y2 -> wrel (x_ns y1) (x_ns y2) /\ sprel (x_f y1) (x_f y2).
Proof.
  induction k as [|k IH]; intros x1 x2 y1 y2 HW SH A1 A2 E1 E2.
  - injection E1 as <-. injection E2 as <-. auto.
  - cbn [run_steps] in E1, E2. apply bind_ok_inv in E1. destruct E1 as (z1 & Ez1 & E1). apply bind_ok_inv in E2. destruct E2 as (z2 & Ez2 & E2).
    destruct (IH x1 x2 z1 z2) as [N VH]; auto. { intros j s Hj; apply A1; lia. } { intros j s Hj; apply A2; lia. }
    destruct (dwstep z1 z2 y1 y2 N VH (A1 k z1 ltac:(lia) Ez1) (A2 k z2 ltac:(lia) Ez2) E1 E2) as (N2 & VD & -> & ->).
    split; [left; exact N2|]. intros i Hii. now rewrite !mvec_axpy, (VH i Hii), (VD i Hii).
Qed.
End Step.

(** ** Moving bodies *)
Section Moving.
Context (name : string) (bs1 bs2 : list (body * list (list R))) (mo1 mo2 : motion) (pos : R -> list (list (list R))) (vel : R -> Z -> Z -> Z -> R).
Hypotheses (Hbo1 : bodies_ok m D1 bs1) (Hbo2 : bodies_ok m D2 bs2) (Hsm : same_points bs1 bs2).
Hypotheses (Hmo1 : prescribed m D1 bs1 mo1 pos vel) (Hmo2 : prescribed m D2 bs2 mo2 pos vel).
Context (vs1 vs2 ps1 ps2 : vec -> vec -> vec) (fs1 fs2 : mat -> vec -> vec -> vec).
Local Notation step1 := (r_advance m D1 P ops1 name mo1 conv1 vs1 ps1 fs1).
Local Notation step2 := (r_advance m D2 P ops2 name mo2 conv2 vs2 ps2 fs2).
Local Notation nf := (n_forces m bs1).
Local Notation bsat1 t := (bodies_at bs1 (pos t)).
Local Notation bsat2 t := (bodies_at bs2 (pos t)).
Hypothesis HSP : forall t B1 B2 h1 h2 E1 H1 E2 H2, boundary_after m D1 types values h1 B1 -> boundary_after m D2 types values h2 B2 ->
  ib_operators m D1 B1 name (bsat1 t) = Ok (E1, H1) -> ib_operators m D2 B2 name (bsat2 t) = Ok (E2, H2) ->
  mrel (SV m) (iv m D1) (iv m D2) (SF m (bsat1 t)) (jf m D1 (bsat1 t)) (jf m D2 (bsat2 t)) H1 H2.
Definition felt_at (t : R) : Prop := forall B X, (exists hist, boundary_after m D1 types values hist B) -> createExtraOperators m D1 B P ops1 name (bsat1 t) = Ok X -> forces_felt m nf X.
Definition rwrel (s1 s2 : rstate) : Prop := wrel (x_ns (r_x s1)) (x_ns (r_x s2)) /\ same_forces m D1 D2 bs1 bs2 (x_f (r_x s1)) (x_f (r_x s2)).
Let at_same := at_same m D1 D2 bs1 bs2 mo1 mo2 pos vel Hmo1 Hmo2.
Let at_ok1 t : bodies_ok m D1 (bsat1 t) := ok_at _ _ _ _ Hbo1 (proj1 (Hmo1 t)).
Let at_ok2 t : bodies_ok m D2 (bsat2 t) := ok_at _ _ _ _ Hbo2 (proj1 (Hmo2 t)).
Let sf_at := sf_at m D1 D2 bs1 bs2 mo1 mo2 pos vel Hbo1 Hbo2 Hmo1 Hmo2.
Lemma rwstep s1 s2 u1 u2 : felt_at (s_t (x_ns (r_x s1)) + p_dt P) -> rwrel s1 s2 -> v_inv m D1 P types values bs1 s1 -> v_inv m D2 P types values bs2 s2 ->
  moving_exact_step m D1 P ops1 name mo1 conv1 vs1 ps1 fs1 s1 -> moving_exact_step m D2 P ops2 name mo2 conv2 vs2 ps2 fs2 s2 ->
  step1 s1 = Ok u1 -> step2 s2 = Ok u2 -> rwrel u1 u2 /\ same_points (r_bodies u1) (r_bodies u2).
Proof.
  intros Hff (N & Sf) [I1 Sh1] [I2 Sh2] X1 X2 E1 E2.
  assert (T : s_t (x_ns (r_x s1)) = s_t (x_ns (r_x s2))) by (destruct (wrel_flow _ _ N) as [T _]; exact T).
  destruct I1 as ((h1 & o1 & _ & _ & HB1) & _). destruct I2 as ((h2 & o2 & _ & _ & HB2) & _).
  unfold r_advance in E1, E2. apply bind_ok_inv in E1. destruct E1 as (z1 & Z1 & E1). apply bind_ok_inv in E2. destruct E2 as (z2 & Z2 & E2).
  specialize (X1 _ Z1). specialize (X2 _ Z2). rewrite <- T in Z2. set (t := s_t (x_ns (r_x s1)) + p_dt P) in *.
  destruct (move_inv m D1 P name bs1 mo1 pos vel Hmo1 ops1 t s1 z1 Sh1 Z1) as (Y1 & Yb1 & Yv1 & YX1 & _).
  destruct (move_inv m D2 P name bs2 mo2 pos vel Hmo2 ops2 t s2 z2 Sh2 Z2) as (Y2 & Yb2 & Yv2 & YX2 & _).
  rewrite Yb1 in YX1. rewrite Yb2 in YX2. pose proof (Hff _ _ (ex_intro (fun h => boundary_after m D1 types values h _) _ HB1) YX1) as Ff.
  assert (En : n_forces m (bsat1 t) = nf) by (apply forces_at; exact (shape_len _ _ (proj1 (Hmo1 t)))).
  pose proof (forces_same m D1 D2 _ _ (at_ok1 t) (at_ok2 t) (at_same t)) as En2.
  rewrite Yb1, Y1 in *. rewrite Yb2, Y2, <- En2 in *.
  apply bind_ok_inv in E1. destruct E1 as (y1 & Ey1 & E1). injection E1 as <-. apply bind_ok_inv in E2. destruct E2 as (y2 & Ey2 & E2). injection E2 as <-.
  assert (RH : mrel (SV m) (iv m D1) (iv m D2) (SF m (bsat1 t)) (jf m D1 (bsat1 t)) (jf m D2 (bsat2 t)) (di_H (r_ops z1)) (di_H (r_ops z2))).
  { destruct (extra_inv m D1 P _ _ _ _ _ YX1) as (Ea & Ha & BNa & EIa & _ & Qa). destruct (extra_inv m D2 P _ _ _ _ _ YX2) as (Eb & Hbb & BNb & EIb & _ & Qb).
    rewrite Qa, Qb. cbn [di_H]. exact (HSP t _ _ _ _ _ _ _ _ HB1 HB2 EIa EIb). }
  assert (Hrf : forall v1 v2, vv v1 v2 -> ff m D1 D2 (bsat1 t) (bsat2 t) (r_assembleRHSForces m (r_ops z1) (r_UB z1) v1) (r_assembleRHSForces m (r_ops z2) (r_UB z2) v2)).
  { intros v1 v2 Hv. destruct (extra_rel m D1 D2 types values Hs1 Hs2 Hb Hmin Hnn P t0 n0 U1 U2 q1 q2 ops1 ops2 a1 a2 HI1 HI2 Hbn name _ _ _ _ _ _ YX1 YX2 RH) as (RE & _).
    pose proof (mr_mvec _ _ _ _ _ _ _ _ _ _ _ _ _ (numV m D1 F1) (numV m D2 F2) RE Hv) as VE.
    assert (VU : ff m D1 D2 (bsat1 t) (bsat2 t) (r_UB z1) (r_UB z2)).
    { apply sf_at. intros i1 i2 [[b i] c] L1 L2. now rewrite (Yv1 _ _ _ _ L1), (Yv2 _ _ _ _ L2). }
    intros u Su. unfold r_assembleRHSForces, vscale. now rewrite (VE u Su), (VU u Su). }
  destruct (dwstep name (bsat1 t) (bsat2 t) (r_ops z1) (r_ops z2) _ _ (at_ok1 t) (at_ok2 t) (at_same t) YX1 YX2 RH
    (r_assembleRHSForces m (r_ops z1) (r_UB z1)) (r_assembleRHSForces m (r_ops z2) (r_UB z2)) vs1 vs2 ps1 ps2 (fs1 (r_solver z1)) (fs2 (r_solver z2)) Hrf) with (x1 := r_x s1) (x2 := r_x s2) (y1 := y1) (y2 := y2) as (N2 & VD & EF1 & EF2); auto.
  - apply (mr_mvec _ _ _ _ _ _ _ _ _ _ _ _ _ (numF1 m D1 _ (at_ok1 t)) (numF2 m D1 D2 _ _ (at_ok1 t) (at_ok2 t) (at_same t)) RH). now apply sf_at.
  - unfold rwrel. cbn [r_x r_bodies]. split; [|exact (at_same t)]. split; [left; exact N2|]. apply (sf_at t). rewrite EF1, EF2.
    apply axpy_rel; [|now apply sf_at]. refine (felt_rel m D1 D2 Hs1 _ _ _ _ (at_ok1 t) (at_ok2 t) (at_same t) RH _ _ _ VD). rewrite En. exact Ff.
Qed.
Lemma rwrun k : forall s1 s2 u1 u2, (forall i, (1 <= i <= k)%nat -> felt_at (s_t (x_ns (r_x s1)) + INR i * p_dt P)) -> rwrel s1 s2 ->
  v_inv m D1 P types values bs1 s1 -> v_inv m D2 P types values bs2 s2 ->
  along step1 (moving_exact_step m D1 P ops1 name mo1 conv1 vs1 ps1 fs1) s1 k -> along step2 (moving_exact_step m D2 P ops2 name mo2 conv2 vs2 ps2 fs2) s2 k ->
  run_steps step1 k s1 = Ok u1 -> run_steps step2 k s2 = Ok u2 -> rwrel u1 u2 /\ (k <> 0%nat -> same_points (r_bodies u1) (r_bodies u2)).
Proof.
  induction k as [|k IH]; intros s1 s2 u1 u2 Hff HW I1 I2 A1 A2 E1 E2.
  - injection E1 as <-. injection E2 as <-. split; [exact HW|]. intros C. now contradiction C.
  - cbn [run_steps] in E1, E2. apply bind_ok_inv in E1. destruct E1 as (z1 & Ez1 & E1). apply bind_ok_inv in E2. destruct E2 as (z2 & Ez2 & E2).
    destruct (IH s1 s2 z1 z2) as [N _]; auto. { intros i Hi. apply Hff. lia. } { intros j s Hj; apply A1; lia. } { intros j s Hj; apply A2; lia. }
    destruct (v_steps m D1 P types values name bs1 conv1 vs1 ps1 Hs1 Hb mo1 pos vel fs1 Hmo1 ops1 k s1 z1 I1 Ez1) as (J1 & T1 & _).
    destruct (v_steps m D2 P types values name bs2 conv2 vs2 ps2 Hs2 Hb mo2 pos vel fs2 Hmo2 ops2 k s2 z2 I2 Ez2) as (J2 & _ & _).
    destruct (rwstep z1 z2 u1 u2) as [N2 Sb]; auto.
    + rewrite T1. replace (s_t (x_ns (r_x s1)) + INR k * p_dt P + p_dt P) with (s_t (x_ns (r_x s1)) + INR (S k) * p_dt P) by (rewrite S_INR; ring). apply Hff. lia.
    + apply (A1 k); auto.
    + apply (A2 k); auto.
Qed.
End Moving.

(** ** The coupled solver *)
Section Coupled.
Context (name : string) (bs1 bs2 : list (body * list (list R))) (O1 O2 : ibops) (p1 p2 : vec) (c1 c2 : nsstate).
Hypotheses (Hbo1 : bodies_ok m D1 bs1) (Hbo2 : bodies_ok m D2 bs2) (Hsm : same_points bs1 bs2).
Hypotheses (HC1 : ib_init m D1 P types values name bs1 t0 n0 U1 p1 = Ok (O1, c1)) (HC2 : ib_init m D2 P types values name bs2 t0 n0 U2 p2 = Ok (O2, c2)).
Hypothesis HSP : forall B1 B2 h1 h2 E1 H1 E2 H2, boundary_after m D1 types values h1 B1 -> boundary_after m D2 types values h2 B2 ->
  ib_operators m D1 B1 name bs1 = Ok (E1, H1) -> ib_operators m D2 B2 name bs2 = Ok (E2, H2) -> mrel (SV m) (iv m D1) (iv m D2) (SF m bs1) (jf m D1 bs1) (jf m D2 bs2) H1 H2.
Context (vs1 vs2 ps1 ps2 : vec -> vec -> vec).
Local Notation step1 := (ib_advance m D1 P O1 conv1 vs1 ps1).
Local Notation step2 := (ib_advance m D2 P O2 conv2 vs2 ps2).
Local Notation good1 := (coupled_exact_step m D1 P O1 conv1 vs1 ps1).
Local Notation good2 := (coupled_exact_step m D2 P O2 conv2 vs2 ps2).
Local Notation crel := (cgrel m D1 D2 types values U1 U2 O1 O2).
Definition cwrel (s1 s2 : nsstate) : Prop := crel s1 s2 \/ (short s1 /\ short s2 /\ crel (blank s1) (blank s2)).
Lemma cwstep s1 s2 w1 w2 : cwrel s1 s2 -> good1 s1 -> good2 s2 -> step1 s1 = Ok w1 -> step2 s2 = Ok w2 -> crel w1 w2.
Proof.
  intros HW G1 G2 E1 E2.
  pose proof (cgstep m D1 D2 types values Hs1 Hs2 Hb Hmin Hnn P t0 n0 U1 U2 q1 q2 ops1 ops2 a1 a2 HI1 HI2 HU Hc Hdt Hbn conv1 conv2 Hcv name bs1 bs2 O1 O2 p1 p2 c1 c2 Hbo1 Hbo2 Hsm HC1 HC2 HSP vs1 vs2 ps1 ps2) as Q.
  destruct HW as [HW|(L1 & L2 & HW)]; [exact (Q _ _ _ _ HW G1 G2 E1 E2)|].
  rewrite <- ib_advance_blank in E1, E2 by assumption. exact (Q _ _ _ _ HW (ib_exact_blank _ _ _ _ _ _ _ _ L1 G1) (ib_exact_blank _ _ _ _ _ _ _ _ L2 G2) E1 E2).
Qed.
Lemma cwrun k : forall s1 s2 w1 w2, cwrel s1 s2 -> along step1 good1 s1 k -> along step2 good2 s2 k -> run_steps step1 k s1 = Ok w1 -> run_steps step2 k s2 = Ok w2 -> cwrel w1 w2.
Proof.
  induction k as [|k IH]; intros s1 s2 w1 w2 HW A1 A2 E1 E2.
  - injection E1 as <-. injection E2 as <-. exact HW.
  - cbn [run_steps] in E1, E2. apply bind_ok_inv in E1. destruct E1 as (z1 & Ez1 & E1). apply bind_ok_inv in E2. destruct E2 as (z2 & Ez2 & E2).
    left. apply (cwstep z1 z2); auto; [|apply (A1 k); auto|apply (A2 k); auto]. apply (IH s1 s2); auto; intros j s Hj; [apply A1|apply A2]; lia.
Qed.
(** The couples (pressure, forces). *)
Lemma couple_rel r1 r2 p' f' : same_pressure D1 D2 (nest_sub (ib_lay O1) 0 r1) p' -> same_forces m D1 D2 bs1 bs2 (nest_sub (ib_lay O1) 1 r1) f' -> r2 = nest_join (ib_lay O2) p' f' ->
  vv (mvec (ib_n O1) (o_G (ib_ns O1)) r1) (mvec (ib_n O2) (o_G (ib_ns O2)) r2).
Proof.
  intros Hp Hf ->.
  pose proof (cops_related m D1 D2 types values Hs1 Hs2 Hb Hmin Hnn P t0 n0 U1 U2 q1 q2 ops1 ops2 a1 a2 HI1 HI2 Hbn name bs1 bs2 O1 O2 p1 p2 c1 c2 Hbo1 Hbo2 Hsm HC1 HC2 HSP) as RC.
  destruct (rc_n _ _ _ _ _ _ _ _ _ _ RC) as [-> ->]. destruct (rc_lay _ _ _ _ _ _ _ _ _ _ RC) as [Y1 Y2]. rewrite Y1, Y2 in *.
  assert (one : (D1 = D1 /\ bs1 = bs1) \/ (D1 = D2 /\ bs1 = bs2)) by (left; auto). assert (two : (D2 = D1 /\ bs2 = bs1) \/ (D2 = D2 /\ bs2 = bs2)) by (right; auto).
  refine (mr_mvec _ _ _ _ _ _ _ _ _ _ _ _ _ (numC m D1 D2 Hs1 Hs2 bs1 bs2 Hbo1 Hbo2 Hsm D1 bs1 one) (numC m D1 D2 Hs1 Hs2 bs1 bs2 Hbo1 Hbo2 Hsm D2 bs2 two) (rc_G _ _ _ _ _ _ _ _ _ _ RC) _).
  intros x Sx. pose proof (jc_at m D1 D2 Hs1 Hs2 bs1 bs2 Hbo1 Hbo2 Hsm D1 bs1 x one Sx) as N1. pose proof (jc_at m D1 D2 Hs1 Hs2 bs1 bs2 Hbo1 Hbo2 Hsm D2 bs2 x two Sx) as N2.
  unfold nest_join. rewrite N2. destruct x as [q|u]; cbn [Z.eqb]; rewrite <- (nest_sub_at m D1 bs1 Hs1 Hbo1 _ _ _ r1 N1).
  - exact (proj1 (pp_same m D1 D2 Hs1 Hs2 _ _) Hp q Sx).
  - exact (proj1 (ff_same m D1 D2 bs1 bs2 Hbo1 Hbo2 Hsm _ _) Hf u Sx).
Qed.
End Coupled.
End Two.
