(** The runs of the three immersed-boundary solvers. *)
From Coq Require Import Lia ZifyBool String List.
Import ListNotations.
From Verif Require Import Prelude ZSum RSum TypesModel GridModel GridSpec GridProof MeshProof
  IndexModel IndexSpec IndexProof BoundaryModel BoundarySpec BoundaryProof OperatorModel OperatorSpec OperatorProof BStateProof LapProof DivProof GradProof
  AdjProof SymProof MatModel BnModel NSModel NSSpec NSProof NSPin BnSpec BnProof LinAlg UniqueProof ConvSpec EnergySpec EnergyProof EnergyRun
  BodyModel BodySpec BodyProof DeltaModel DeltaSpec IbpmModel IbpmSpec IbpmProof IbpmStep IbpmDec IbpmMove RestartProof DecSpec IndepSpec IndepProof.
Local Open Scope R_scope.

Lemma bng_of nv n BN L dt c (G : mat) x i : createBnHead nv L dt c 1 = Ok BN -> (0 <= i < nv)%Z -> mvec n (mmul nv BN G) x i = dt * mvec n G x i.
Proof.
  intros EB Hi. unfold mvec, zsum. rewrite <- sumR_scal. apply sumR_ext. intros l _. rewrite (bn_one _ _ _ _ _ _ EB i l Hi). ring.
Qed.

(** * The coupled solver *)
Section Coupled.
Variables (m : mesh) (D : dec) (P : nspar) (types : Z -> Z -> bctype) (values : Z -> Z -> R) (name : string) (bodies : list (body * list (list R))).
Variables (t0 : R) (n0 : Z) (U0 p0 : vec) (O : ibops) (s0 : nsstate).
Hypotheses (Hset : mesh_setup m D) (Hb : bc_fits m types) (Hbo : bodies_ok m D bodies) (Hmin : periodic_min m 3) (Hneu : no_normal_neumann m types).
Hypotheses (Hbn : p_bn P = 1%Z) (Hdt : 0 < p_dt P) (Hc : 0 <= p_dimp P * p_nu P).
Hypothesis HI : ib_init m D P types values name bodies t0 n0 U0 p0 = Ok (O, s0).
Let F : mfacts m D := setup_facts _ _ Hset.
Local Notation nv := (n_velocity m).
Variable conv : boundary -> vec -> res vec.
Hypothesis Hcv : quiet_conv m D types values conv.
Variables vs1 vs2 ps1 ps2 : vec -> vec -> vec.

Definition crel (s1 s2 : nsstate) : Prop :=
  same_flow m s1 s2 /\ V m (mvec (ib_n O) (o_G (ib_ns O)) (s_p s1)) (mvec (ib_n O) (o_G (ib_ns O)) (s_p s2)) /\ s_bc s1 = s_bc s2 /\
  exists h, boundary_after m D types values ([OpICs U0] ++ h) (s_bc s1).

Lemma cstep s1 s2 t1 t2 : crel s1 s2 -> coupled_exact_step m D P O conv vs1 ps1 s1 -> coupled_exact_step m D P O conv vs2 ps2 s2 ->
  ib_advance m D P O conv vs1 ps1 s1 = Ok t1 -> ib_advance m D P O conv vs2 ps2 s2 = Ok t2 -> crel t1 t2.
Proof.
  intros ((St & Si & SU & Sc & Sd) & SG & SB & h & HB) X1 X2 E1 E2.
  destruct (ib_advance_inv _ _ _ _ _ _ _ _ _ E1) as (r1 & w1 & b1 & R1 & P1 & BE1 & _ & EU1 & Ep1 & BV1 & Et1 & Ei1 & Ec1 & Ed1).
  destruct (ib_advance_inv _ _ _ _ _ _ _ _ _ E2) as (r2 & w2 & b2 & R2 & P2 & BE2 & _ & EU2 & Ep2 & BV2 & Et2 & Ei2 & Ec2 & Ed2).
  destruct (X1 _ _ _ R1 P1) as [SA1 SP1]. destruct (X2 _ _ _ R2 P2) as [SA2 SP2].
  assert (Hi : forall h', has_ics ([OpICs U0] ++ h')) by (intros; exists U0; apply in_or_app; left; now left).
  destruct (rhs_same m D P types values Hset Hb (ib_n O) (ib_ns O) conv ([OpICs U0] ++ h) (begun P s1) (begun P s2) r1 r2 w1 w2 Hcv (Hi h) HB SB SU SG Sc Sd R1 R2) as (Vr & WB & Vc & Vd).
  pose proof (ib_adjoint m D P types values name bodies t0 n0 U0 p0 O s0 Hset Hb Hbo Hmin Hneu HI) as Hadj.
  destruct (ib_init_inv m D P types values name bodies Hset Hb _ _ _ _ _ _ HI) as (B & HB0 & EO & _).
  destruct (ib_createOperators_inv m D P name bodies _ _ EO) as (d & g & l & E & H & BN & Ed & Eg & El & EE & EB & EOO). cbv zeta in EOO.
  rewrite (createLaplacian_ok m D types values [OpICs U0] B F Hb HB0) in El. injection El as <-. rewrite Hbn in EB.
  assert (EA : o_A (ib_ns O) = mshift (mscale (- p_dimp P * p_nu P) (entry (op_log (op_of m D types values (lap_rows m D) [OpICs U0])))) (1 / p_dt P)) by (rewrite EOO; reflexivity).
  rewrite EA in SA1, SA2.
  pose proof (momentum_same m D P types values Hset Hb [OpICs U0] _ _ _ _ _ (ics_one U0) Hmin Hc Hdt eq_refl Vr SA1 SA2) as VU.
  assert (Vb : forall i, b1 i = b2 i).
  { unfold ib_assembleRHSPoisson in P1, P2. rewrite <- WB in P2. apply bind_ok_inv in P1. destruct P1 as (c1 & C1 & P1). rewrite C1 in P2. cbn [bind] in P2. cbv zeta in *.
    injection P1 as <-. injection P2 as <-. pose proof (fun i => se_mvec_at nv (ib_D O) _ _ i VU) as M.
    assert (M' : forall i, match nthZ (ib_lay O) i with Some (b, k) => if (b =? 0)%Z then mvec nv (ib_D O) (vs1 (s_U s1) r1) i + c1 k else mvec nv (ib_D O) (vs1 (s_U s1) r1) i | None => mvec nv (ib_D O) (vs1 (s_U s1) r1) i end
      = match nthZ (ib_lay O) i with Some (b, k) => if (b =? 0)%Z then mvec nv (ib_D O) (vs2 (s_U s2) r2) i + c1 k else mvec nv (ib_D O) (vs2 (s_U s2) r2) i | None => mvec nv (ib_D O) (vs2 (s_U s2) r2) i end)
      by (intros i; now rewrite M).
    intros i. destruct (p_refp P); [destruct (i =? 0)%Z; [reflexivity|]|]; apply M'. }
  assert (EBN : o_BNG (ib_ns O) = mmul nv BN (o_G (ib_ns O))) by (rewrite EOO; reflexivity).
  assert (EM : o_DBNG (ib_ns O) = if p_refp P then pin (mmul nv (ib_D O) (o_BNG (ib_ns O))) else mmul nv (ib_D O) (o_BNG (ib_ns O))) by (rewrite EOO; reflexivity).
  assert (SP2' : solves (ib_n O) (o_DBNG (ib_ns O)) (ps2 (s_dP s2) b2) b1) by (intros i Hi'; rewrite Vb; now apply SP2).
  rewrite EM in SP1, SP2'.
  assert (VG : V m (mvec (ib_n O) (o_G (ib_ns O)) (ps1 (s_dP s1) b1)) (mvec (ib_n O) (o_G (ib_ns O)) (ps2 (s_dP s2) b2))).
  { intros c Hcc. apply (kernel_still nv (ib_n O) (volume m D) (o_G (ib_ns O)) (ib_D O) (o_BNG (ib_ns O)) (p_dt P) (-1) (p_refp P) _ _ b1); auto; try lra.
    - intros. now apply volume_pos.
    - intros r c' Hr Hc'. rewrite Hadj by auto. ring.
    - intros c' j Hc' _. rewrite EBN. now apply (bn_one _ _ _ _ _ _ EB). }
  assert (VU2 : V m (s_U t1) (s_U t2)).
  { rewrite EU1, EU2. intros i Hii. unfold vaxpy. rewrite EBN, !(bng_of _ _ _ _ _ _ _ _ _ EB Hii), (VG i Hii), (VU i Hii). reflexivity. }
  pose proof (bc_call_inv m D types values _ _ _ _ F Hb HB BE1) as HB1. rewrite <- app_assoc in HB1.
  split; [|split; [|split]].
  - split; [rewrite Et1, Et2, St; reflexivity|]. split; [rewrite Ei1, Ei2, Si; reflexivity|]. split; [exact VU2|]. rewrite Ec1, Ec2, Ed1, Ed2. auto.
  - rewrite Ep1, Ep2. intros i Hii. rewrite !mvec_axpy, (SG i Hii), (VG i Hii). reflexivity.
  - rewrite <- WB in BV2. rewrite <- (call_same m D types values Hset Hb _ _ _ _ HB1 (so_vals m _ _ VU2)), BV1 in BV2. now injection BV2.
  - pose proof (bc_call_inv m D types values _ _ _ _ F Hb HB1 BV1) as HB2. rewrite <- app_assoc in HB2. eexists. exact HB2.
Qed.

Lemma crun k : forall s1 s2, along (ib_advance m D P O conv vs1 ps1) (coupled_exact_step m D P O conv vs1 ps1) s0 k ->
  along (ib_advance m D P O conv vs2 ps2) (coupled_exact_step m D P O conv vs2 ps2) s0 k ->
  run_steps (ib_advance m D P O conv vs1 ps1) k s0 = Ok s1 -> run_steps (ib_advance m D P O conv vs2 ps2) k s0 = Ok s2 -> crel s1 s2.
Proof.
  induction k as [|k IH]; intros s1 s2 A1 A2 E1 E2.
  - injection E1 as <-. injection E2 as <-. destruct (ib_init_inv m D P types values name bodies Hset Hb _ _ _ _ _ _ HI) as (B & HB0 & _ & ->).
    split; [|split; [|split]]; cbn [s_t s_ite s_U s_p s_conv s_diff s_bc]; [|intros ? ?; reflexivity|reflexivity|exists []; exact HB0].
    split; [reflexivity|]. split; [reflexivity|]. split; [intros ? ?; reflexivity|]. cbn [s_conv s_diff]. split; [generalize (p_cexp P)|generalize (p_dexp P)]; induction l; constructor; auto; intros ? ?; reflexivity.
  - cbn [run_steps] in E1, E2. apply bind_ok_inv in E1. destruct E1 as (a1 & Ea1 & E1). apply bind_ok_inv in E2. destruct E2 as (a2 & Ea2 & E2).
    apply (cstep a1 a2); auto.
    + apply IH; auto; intros j s Hj; [apply A1|apply A2]; lia.
    + apply (A1 k); auto.
    + apply (A2 k); auto.
Qed.
End Coupled.

(** * The decoupled solver *)
Section Decoupled.
Variables (m : mesh) (D : dec) (P : nspar) (types : Z -> Z -> bctype) (values : Z -> Z -> R).
Variables (t0 : R) (n0 : Z) (U0 p0 : vec) (O : nsops) (a0 : nsstate).
Hypotheses (Hset : mesh_setup m D) (Hb : bc_fits m types) (Hmin : periodic_min m 3) (Hneu : no_normal_neumann m types).
Hypotheses (Hbn : p_bn P = 1%Z) (Hdt : 0 < p_dt P) (Hc : 0 <= p_dimp P * p_nu P).
Hypothesis HI : ns_init m D P types values t0 n0 U0 p0 = Ok (O, a0).
Let F : mfacts m D := setup_facts _ _ Hset.
Local Notation nv := (n_velocity m).
Local Notation np := (n_pressure m).
Variable conv : boundary -> vec -> res vec.
Hypothesis Hcv : quiet_conv m D types values conv.
Variables vs1 vs2 ps1 ps2 : vec -> vec -> vec.

Definition prel (p1 p2 : vec) : Prop := exists a, (p_refp P = true -> a = 0) /\ forall i, (0 <= i < np)%Z -> p1 i = p2 i + a.
Definition nrel (s1 s2 : nsstate) : Prop :=
  same_flow m s1 s2 /\ prel (s_p s1) (s_p s2) /\ V m (mvec np (o_G O) (s_p s1)) (mvec np (o_G O) (s_p s2)) /\ s_bc s1 = s_bc s2 /\
  exists h, boundary_after m D types values ([OpICs U0] ++ h) (s_bc s1).

Lemma poisson_same x1 x2 b1 b2 : (forall i, b1 i = b2 i) -> solves np (o_DBNG O) x1 b1 -> solves np (o_DBNG O) x2 b2 ->
  prel x1 x2.
Proof.
  intros Hbb S1 S2. assert (S2' : solves np (o_DBNG O) x2 b1) by (intros i Hi; rewrite Hbb; now apply S2).
  destruct (p_refp P) eqn:Er.
  - destruct (pinned_unique_ns m D P types values t0 n0 U0 p0 O a0 Hset Hb HI (min_three_two m Hmin) Hneu Hbn ltac:(lra) Er b1) as (x & _ & Ux).
    exists 0. split; auto. intros i Hi. rewrite (Ux _ S1 i Hi), (Ux _ S2' i Hi). ring.
  - destruct (unpinned_ns m D P types values t0 n0 U0 p0 O a0 Hset Hb HI (min_three_two m Hmin) Hneu Hbn ltac:(lra) Er b1) as [_ Ux].
    destruct (proj1 (Ux x2 S2' x1) S1) as (a & Ha). exists a. split; [congruence|exact Ha].
Qed.

Lemma dstep name bodies X hB B rf1 rf2 fs1 fs2 x1 x2 y1 y2 :
  let nf := n_forces m bodies in
  boundary_after m D types values hB B -> createExtraOperators m D B P O name bodies = Ok X ->
  (forall u1 u2, V m u1 u2 -> same_entries nf (rf1 u1) (rf2 u2)) ->
  nrel (x_ns x1) (x_ns x2) -> V m (mvec nf (di_H X) (x_f x1)) (mvec nf (di_H X) (x_f x2)) ->
  decoupled_exact_step m D P O X nf conv rf1 vs1 ps1 fs1 x1 -> decoupled_exact_step m D P O X nf conv rf2 vs2 ps2 fs2 x2 ->
  d_advance m D P O X nf conv rf1 vs1 ps1 fs1 x1 = Ok y1 -> d_advance m D P O X nf conv rf2 vs2 ps2 fs2 x2 = Ok y2 ->
  nrel (x_ns y1) (x_ns y2) /\ V m (mvec nf (di_H X) (x_df y1)) (mvec nf (di_H X) (x_df y2)) /\
  x_f y1 = vaxpy (x_f x1) 1 (x_df y1) /\ x_f y2 = vaxpy (x_f x2) 1 (x_df y2).
Proof.
  intros nf HBx EX Hrf ((St & Si & SU & Sc & Sd) & (a & Ha & Sp) & SG & SB & h & HB) SH X1 X2 E1 E2.
  destruct (d_advance_inv _ _ _ _ _ _ _ _ _ _ _ _ _ E1) as (r1 & w1 & b1 & R1 & Df1 & P1 & BE1 & Dp1 & EU1 & Ep1 & Ef1 & BV1 & Et1 & Ei1 & Ec1 & Ed1). cbv zeta in *.
  destruct (d_advance_inv _ _ _ _ _ _ _ _ _ _ _ _ _ E2) as (r2 & w2 & b2 & R2 & Df2 & P2 & BE2 & Dp2 & EU2 & Ep2 & Ef2 & BV2 & Et2 & Ei2 & Ec2 & Ed2). cbv zeta in *.
  pose proof P1 as Q1. pose proof P2 as Q2. rewrite Df1 in Q1. rewrite Df2 in Q2.
  destruct (X1 _ _ _ R1 Q1) as (SA1 & SF1 & SP1). destruct (X2 _ _ _ R2 Q2) as (SA2 & SF2 & SP2). rewrite <- Df1 in SF1. rewrite <- Df2 in SF2. rewrite <- Dp1 in SP1. rewrite <- Dp2 in SP2.
  assert (Hi : forall h', has_ics ([OpICs U0] ++ h')) by (intros; exists U0; apply in_or_app; left; now left).
  destruct (rhs_same m D P types values Hset Hb np O conv ([OpICs U0] ++ h) (begun P (x_ns x1)) (begun P (x_ns x2)) r1 r2 w1 w2 Hcv (Hi h) HB SB SU SG Sc Sd R1 R2) as (Vr & WB & Vc & Vd).
  pose proof (ns_adjoint m D P types values t0 n0 U0 p0 O a0 Hset Hb Hmin Hneu HI) as Hadj.
  destruct (ns_init_inv _ _ _ _ _ _ _ _ _ _ _ F Hb HI) as (B0 & HB0 & EO & _).
  destruct (createOperators_inv _ _ _ _ _ EO) as (d & g & l & BN & Ed & Eg & El & EB & EOO).
  rewrite (createLaplacian_ok m D types values [OpICs U0] B0 F Hb HB0) in El. injection El as <-. rewrite Hbn in EB.
  assert (EA : o_A O = mshift (mscale (- p_dimp P * p_nu P) (entry (op_log (op_of m D types values (lap_rows m D) [OpICs U0])))) (1 / p_dt P)) by (rewrite EOO; reflexivity).
  rewrite EA in SA1, SA2.
  pose proof (momentum_same m D P types values Hset Hb [OpICs U0] _ _ _ _ _ (ics_one U0) Hmin Hc Hdt eq_refl (se_axpy _ 1 _ _ _ _ SH Vr) SA1 SA2) as VU.
  destruct (extra_inv m D P _ _ _ _ _ EX) as (E & H & BN' & EI & EB' & EXX). rewrite Hbn in EB'.
  assert (VH : V m (mvec nf (di_H X) (x_df y1)) (mvec nf (di_H X) (x_df y2))).
  { rewrite EXX in SF1, SF2 |- *. cbn [di_E di_H di_BNH di_EBNH] in *.
    assert (SF2' : solves nf (mmul nv E (mmul nv BN' H)) (x_df y2) (rf1 (vs1 (s_U (x_ns x1)) (vaxpy r1 1 (mvec nf H (x_f x1)))))).
    { intros i Hi'. rewrite (SF2 i Hi'). symmetry. rewrite EXX in VU. apply (Hrf _ _ VU i Hi'). }
    intros c Hcc. refine (kernel_still nv nf (volume m D) H E (mmul nv BN' H) (p_dt P) 1 false _ _ _ _ _ _ _ _ SF1 SF2' c Hcc); try lra.
    - intros. now apply volume_pos.
    - intros r c' _ Hc'. rewrite (spread_adjoint m D name bodies Hset _ _ _ EI r c' Hc'). ring.
    - intros c' j Hc' _. now apply (bn_one _ _ _ _ _ _ EB'). }
  set (W1 := vaxpy _ 1 (mvec nf (di_BNH X) (x_df y1))) in *. set (W2 := vaxpy _ 1 (mvec nf (di_BNH X) (x_df y2))) in *.
  assert (VW : V m W1 W2).
  { intros i Hii. unfold W1, W2, vaxpy at 1 3. rewrite (VU i Hii). specialize (VH i Hii). rewrite EXX in VH |- *. cbn [di_H di_BNH] in *.
    now rewrite !(bng_of _ _ _ _ _ _ _ _ _ EB' Hii), VH. }
  assert (Vb : forall i, b1 i = b2 i).
  { unfold assembleRHSPoisson in P1, P2. rewrite <- WB in P2. apply bind_ok_inv in P1. destruct P1 as (c1 & C1 & P1). rewrite C1 in P2. cbn [bind] in P2. cbv zeta in *.
    injection P1 as <-. injection P2 as <-. pose proof (fun i => se_mvec_at nv (entry (op_log (o_D O))) _ _ i VW) as M.
    intros i. destruct (p_refp P); [destruct (i =? 0)%Z; [reflexivity|]|]; unfold vaxpy; now rewrite M. }
  destruct (poisson_same _ _ _ _ Vb SP1 SP2) as (a' & Ha' & VP).
  assert (EBN : o_BNG O = mmul nv BN (o_G O)) by (rewrite EOO; reflexivity).
  assert (EM : o_DBNG O = if p_refp P then pin (mmul nv (entry (op_log (o_D O))) (o_BNG O)) else mmul nv (entry (op_log (o_D O))) (o_BNG O)) by (rewrite EOO; reflexivity).
  assert (SP2' : solves np (o_DBNG O) (s_dP (x_ns y2)) b1) by (intros i Hi'; rewrite Vb; now apply SP2).
  rewrite EM in SP1, SP2'.
  assert (VG : V m (mvec np (o_G O) (s_dP (x_ns y1))) (mvec np (o_G O) (s_dP (x_ns y2)))).
  { intros c Hcc. apply (kernel_still nv np (volume m D) (o_G O) (entry (op_log (o_D O))) (o_BNG O) (p_dt P) (-1) (p_refp P) _ _ b1); auto; try lra.
    - intros. now apply volume_pos.
    - intros r c' Hr Hc'. rewrite Hadj by auto. ring.
    - intros c' j Hc' _. rewrite EBN. now apply (bn_one _ _ _ _ _ _ EB). }
  assert (VU2 : V m (s_U (x_ns y1)) (s_U (x_ns y2))).
  { rewrite EU1, EU2. intros i Hii. unfold vaxpy. rewrite EBN, !(bng_of _ _ _ _ _ _ _ _ _ EB Hii), (VG i Hii), (VW i Hii). reflexivity. }
  pose proof (bc_call_inv m D types values _ _ _ _ F Hb HB BE1) as HB1. rewrite <- app_assoc in HB1.
  split; [|split; [exact VH|auto]]. split; [|split; [|split; [|split]]].
  - split; [rewrite Et1, Et2, St; reflexivity|]. split; [rewrite Ei1, Ei2, Si; reflexivity|]. split; [exact VU2|]. rewrite Ec1, Ec2, Ed1, Ed2. auto.
  - exists (a + a'). split; [intros Er; rewrite (Ha Er), (Ha' Er); ring|]. intros i Hii. rewrite Ep1, Ep2. unfold vaxpy. rewrite (Sp i Hii), (VP i Hii). ring.
  - rewrite Ep1, Ep2. intros i Hii. rewrite !mvec_axpy, (SG i Hii), (VG i Hii). reflexivity.
  - rewrite <- WB in BV2. rewrite <- (call_same m D types values Hset Hb _ _ _ _ HB1 (so_vals m _ _ VU2)), BV1 in BV2. now injection BV2.
  - pose proof (bc_call_inv m D types values _ _ _ _ F Hb HB1 BV1) as HB2. rewrite <- app_assoc in HB2. eexists. exact HB2.
Qed.

Lemma nrel_init : nrel a0 a0.
Proof.
  destruct (ns_init_inv _ _ _ _ _ _ _ _ _ _ _ F Hb HI) as (B0 & HB0 & EO & ->).
  split; [|split; [|split; [|split]]]; cbn [s_t s_ite s_U s_p s_conv s_diff s_bc]; [| |intros ? ?; reflexivity|reflexivity|exists []; exact HB0].
  - split; [reflexivity|]. split; [reflexivity|]. split; [intros ? ?; reflexivity|]. cbn [s_conv s_diff]. split; [generalize (p_cexp P)|generalize (p_dexp P)]; induction l; constructor; auto; intros ? ?; reflexivity.
  - exists 0. split; auto. intros; ring.
Qed.

Lemma drun name bodies X B rf fs1 fs2 x0 k : let nf := n_forces m bodies in
  boundary_after m D types values [OpICs U0] B -> createExtraOperators m D B P O name bodies = Ok X -> x_ns x0 = a0 ->
  (forall u1 u2, V m u1 u2 -> same_entries nf (rf u1) (rf u2)) ->
  forall y1 y2, along (d_advance m D P O X nf conv rf vs1 ps1 fs1) (decoupled_exact_step m D P O X nf conv rf vs1 ps1 fs1) x0 k ->
  along (d_advance m D P O X nf conv rf vs2 ps2 fs2) (decoupled_exact_step m D P O X nf conv rf vs2 ps2 fs2) x0 k ->
  run_steps (d_advance m D P O X nf conv rf vs1 ps1 fs1) k x0 = Ok y1 -> run_steps (d_advance m D P O X nf conv rf vs2 ps2 fs2) k x0 = Ok y2 ->
  nrel (x_ns y1) (x_ns y2) /\ V m (mvec nf (di_H X) (x_f y1)) (mvec nf (di_H X) (x_f y2)).
Proof.
  intros nf HB EX E0 Hrf. induction k as [|k IH]; intros y1 y2 A1 A2 E1 E2.
  - injection E1 as <-. injection E2 as <-. rewrite E0. split; [exact nrel_init|apply se_refl].
  - cbn [run_steps] in E1, E2. apply bind_ok_inv in E1. destruct E1 as (z1 & Ez1 & E1). apply bind_ok_inv in E2. destruct E2 as (z2 & Ez2 & E2).
    destruct (IH z1 z2) as [N VH]; auto. { intros j s Hj; apply A1; lia. } { intros j s Hj; apply A2; lia. }
    destruct (dstep name bodies X _ B rf rf fs1 fs2 z1 z2 y1 y2 HB EX Hrf N VH (A1 k z1 ltac:(lia) Ez1) (A2 k z2 ltac:(lia) Ez2) E1 E2) as (N2 & VD & -> & ->).
    split; [exact N2|]. intros i Hii. specialize (VH i Hii). specialize (VD i Hii). fold nf in VD. rewrite !mvec_axpy, VH, VD. reflexivity.
Qed.
End Decoupled.

(** * Moving bodies *)
Section Moving.
Variables (m : mesh) (D : dec) (P : nspar) (types : Z -> Z -> bctype) (values : Z -> Z -> R).
Variables (name : string) (bodies : list (body * list (list R))) (mo : motion) (pos : R -> list (list (list R))) (vel : R -> Z -> Z -> Z -> R).
Variables (t0 : R) (n0 : Z) (U0 p0 : vec) (O : nsops) (s0 : rstate).
Hypotheses (Hset : mesh_setup m D) (Hb : bc_fits m types) (Hbo : bodies_ok m D bodies) (Hmo : prescribed m D bodies mo pos vel) (Hmin : periodic_min m 3) (Hneu : no_normal_neumann m types).
Hypotheses (Hbn : p_bn P = 1%Z) (Hdt : 0 < p_dt P) (Hc : 0 <= p_dimp P * p_nu P).
Hypothesis HI : r_init m D P types values name bodies t0 n0 U0 p0 = Ok (O, s0).
Let F : mfacts m D := setup_facts _ _ Hset.
Local Notation nv := (n_velocity m).
Let nf := n_forces m bodies.
Variable conv : boundary -> vec -> res vec.
Hypothesis Hcv : quiet_conv m D types values conv.
Variables (vs1 vs2 ps1 ps2 : vec -> vec -> vec) (fs1 fs2 : mat -> vec -> vec -> vec).
Local Notation step1 := (r_advance m D P O name mo conv vs1 ps1 fs1).
Local Notation step2 := (r_advance m D P O name mo conv vs2 ps2 fs2).

Definition rrel (s1 s2 : rstate) : Prop :=
  nrel m D P types values U0 O (x_ns (r_x s1)) (x_ns (r_x s2)) /\ same_entries nf (x_f (r_x s1)) (x_f (r_x s2)) /\ r_bodies s1 = r_bodies s2.

Lemma held_same ub1 ub2 v : holds_velocity m D bodies ub1 v -> holds_velocity m D bodies ub2 v -> same_entries nf ub1 ub2.
Proof.
  intros H1 H2 i Hi. assert (Hl : (0 <= i < lenZ (body_layout (nranks D) (m_dim m) (map fst bodies)))%Z).
  { rewrite body_layout_len; [exact Hi|..]; apply Hbo. }
  destruct (nthZ_in_range _ _ Hl) as ([[b q] c] & E). now rewrite (H1 _ _ _ _ E), (H2 _ _ _ _ E).
Qed.

Lemma rstep k s1 s2 u1 u2 :
  (forall B X, (exists hist, boundary_after m D types values hist B) -> createExtraOperators m D B P O name (bodies_at bodies (pos (t0 + INR (S k) * p_dt P))) = Ok X -> forces_felt m nf X) ->
  rrel s1 s2 -> run_steps step1 k s0 = Ok s1 -> run_steps step2 k s0 = Ok s2 ->
  moving_exact_step m D P O name mo conv vs1 ps1 fs1 s1 -> moving_exact_step m D P O name mo conv vs2 ps2 fs2 s2 ->
  step1 s1 = Ok u1 -> step2 s2 = Ok u2 -> rrel u1 u2.
Proof.
  intros Hff (N & Sf & Sb) K1 K2 X1 X2 E1 E2.
  destruct (r_steps m D P types values Hset Hb name bodies mo pos vel Hmo conv vs1 ps1 fs1 _ _ _ _ _ _ _ _ HI K1) as (Sh1 & (h1 & HB1) & T1 & _).
  destruct (r_steps m D P types values Hset Hb name bodies mo pos vel Hmo conv vs2 ps2 fs2 _ _ _ _ _ _ _ _ HI K2) as (Sh2 & (h2 & HB2) & T2 & _).
  set (t := t0 + INR (S k) * p_dt P) in *. assert (Et : t0 + INR k * p_dt P + p_dt P = t) by (unfold t; rewrite S_INR; ring).
  unfold r_advance in E1, E2. apply bind_ok_inv in E1. destruct E1 as (z1 & Z1 & E1). apply bind_ok_inv in E2. destruct E2 as (z2 & Z2 & E2).
  specialize (X1 _ Z1). specialize (X2 _ Z2). rewrite T1, Et in Z1. rewrite T2, Et in Z2.
  destruct (move_inv m D P name bodies mo pos vel Hmo O t s1 z1 Sh1 Z1) as (Y1 & Yb1 & Yv1 & YX1 & Ys1).
  destruct (move_inv m D P name bodies mo pos vel Hmo O t s2 z2 Sh2 Z2) as (Y2 & Yb2 & Yv2 & YX2 & Ys2).
  assert (SB : s_bc (x_ns (r_x s1)) = s_bc (x_ns (r_x s2))) by apply N. rewrite Yb2, <- SB in YX2. rewrite Yb1 in YX1. rewrite YX1 in YX2. injection YX2 as EX. pose proof (Hff _ _ (ex_intro (fun h => boundary_after m D types values h _) _ HB1) YX1) as Ff.
  assert (En : n_forces m (bodies_at bodies (pos t)) = nf) by (apply forces_at; exact (shape_len _ _ (proj1 (Hmo t)))).
  rewrite Yb1, Y1 in *. rewrite Yb2, Y2 in *. rewrite <- EX in *.
  apply bind_ok_inv in E1. destruct E1 as (y1 & Ey1 & E1). injection E1 as <-. apply bind_ok_inv in E2. destruct E2 as (y2 & Ey2 & E2). injection E2 as <-.
  destruct (r_init_inv m D P types values Hset Hb name bodies _ _ _ _ _ _ HI) as (B & X & x0 & HB & EO & ED & EX0 & Es0 & _).
  assert (HN : exists a0, ns_init m D P types values t0 n0 U0 p0 = Ok (O, a0)).
  { unfold d_init in ED. apply bind_ok_inv in ED. destruct ED as ([O' a0] & Q & ED). apply bind_ok_inv in ED. destruct ED as (X' & _ & ED). injection ED as -> _ _. eauto. }
  destruct HN as (a0 & HN).
  destruct (dstep m D P types values t0 n0 U0 p0 O a0 Hset Hb Hmin Hneu Hbn Hdt Hc HN conv Hcv vs1 vs2 ps1 ps2 name (bodies_at bodies (pos t)) (r_ops z1) _ _
    (r_assembleRHSForces m (r_ops z1) (r_UB z1)) (r_assembleRHSForces m (r_ops z1) (r_UB z2)) (fs1 (r_solver z1)) (fs2 (r_solver z2)) (r_x s1) (r_x s2) y1 y2 HB1 YX1) as (N2 & VD & EF1 & EF2); auto.
  - rewrite En. intros v1 v2 Hv i Hi. unfold r_assembleRHSForces, vscale. rewrite (held_same _ _ _ Yv1 Yv2 i Hi). now rewrite (se_mvec_at nv _ v1 v2 i Hv).
  - rewrite En. now apply se_mvec.
  - unfold rrel. cbn [r_x r_bodies]. split; [exact N2|]. split; [|congruence].
    rewrite EF1, EF2. intros i Hi. unfold vaxpy. rewrite (Sf i Hi). rewrite En in VD.
    pose proof (Ff (fun j => x_df y1 j - x_df y2 j) ltac:(intros c Hcc; rewrite mvec_minus, (VD c Hcc); ring) i Hi) as Z0. cbv beta in Z0. lra.
Qed.

Lemma rrun k : (forall j B X, (1 <= j <= k)%nat -> (exists hist, boundary_after m D types values hist B) -> createExtraOperators m D B P O name (bodies_at bodies (pos (t0 + INR j * p_dt P))) = Ok X -> forces_felt m nf X) ->
  forall s1 s2, along step1 (moving_exact_step m D P O name mo conv vs1 ps1 fs1) s0 k -> along step2 (moving_exact_step m D P O name mo conv vs2 ps2 fs2) s0 k ->
  run_steps step1 k s0 = Ok s1 -> run_steps step2 k s0 = Ok s2 -> rrel s1 s2.
Proof.
  induction k as [|k IH]; intros Hff s1 s2 A1 A2 E1 E2.
  - injection E1 as <-. injection E2 as <-.
    destruct (r_init_inv m D P types values Hset Hb name bodies _ _ _ _ _ _ HI) as (B & X & x0 & HB & EO & ED & EX0 & Es0 & _).
    unfold d_init in ED. apply bind_ok_inv in ED. destruct ED as ([O' a0] & Q & ED). apply bind_ok_inv in ED. destruct ED as (X' & _ & ED). injection ED as -> _ E0.
    rewrite Es0, <- E0. split; [|split; [apply se_refl|reflexivity]]. cbn [r_x x_ns]. exact (nrel_init m D P types values t0 n0 U0 p0 O a0 Hset Hb Q).
  - cbn [run_steps] in E1, E2. apply bind_ok_inv in E1. destruct E1 as (z1 & Ez1 & E1). apply bind_ok_inv in E2. destruct E2 as (z2 & Ez2 & E2).
    apply (rstep k z1 z2); auto.
    + intros B X. apply Hff. lia.
    + apply IH; auto; [intros j B X Hj; apply Hff; lia|intros j s Hj; apply A1; lia|intros j s Hj; apply A2; lia].
    + apply (A1 k); auto.
    + apply (A2 k); auto.
Qed.
End Moving.
