(** The programs of the immersed-boundary solvers, resumed with other solvers or
    on another process grid. *)
From Coq Require Import Lia ZifyBool String List.
Import ListNotations.
From Verif Require Import Prelude ZSum RSum TypesModel GridModel GridSpec GridProof MeshProof
  IndexModel IndexSpec IndexProof BoundaryModel BoundarySpec BoundaryProof OperatorModel OperatorSpec OperatorProof BStateProof LapProof DivProof GradProof
  AdjProof SymProof MatModel BnModel NSModel NSSpec NSProof NSTotal NSPin BnSpec BnProof LinAlg UniqueProof ConvModel ConvSpec EnergySpec EnergyProof EnergyRun
  NameModel NameProof DriverModel DriverSpec DriverProof DriveProof RestartProof DecSpec DecProof DecConv ResumeSpec ResumeProof
  BodyModel BodySpec BodyProof BodyUse DeltaModel DeltaSpec DeltaSum IbpmModel IbpmSpec IbpmProof IbpmStep IbpmDec IbpmMove
  IbOutModel IbOutSpec IbOutDrive IbOutSim IbOutLines IbOutProof IbOutDec IndepSpec IndepProof IndepRun IbGridSpec IbGridProof IbGridRun IbGridProps IbResumeSpec IbResumeDrive IbResumeProof.
Local Open Scope R_scope.

Lemma along_later {A} (step : A -> res A) good s k j s' : along step good s (k + j) -> run_steps step k s = Ok s' -> along step good s' j.
Proof. intros H E i u Hi Eu. apply (H (k + i)%nat); [lia|]. rewrite run_add, E. exact Eu. Qed.
Lemma along_less {A} (step : A -> res A) good s k j : along step good s k -> (j <= k)%nat -> along step good s j.
Proof. intros H L i u Hi Eu. apply (H i); [lia|exact Eu]. Qed.
Lemma run_prefix {A} (step : A -> res A) s k j u : run_steps step k s = Ok u -> (j <= k)%nat -> exists w, run_steps step j s = Ok w.
Proof.
  intros E L. replace k with (j + (k - j))%nat in E by lia. rewrite run_add in E. apply bind_ok_inv in E. destruct E as (w & Ew & _). eauto.
Qed.
(** The lines of two runs, step by step. *)
Lemma lines_agree {A B} (step1 : A -> res A) (step2 : B -> res B) line1 line2 s1 s2 (lsR ls2 : list (list R)) :
  lenZ lsR = lenZ ls2 ->
  (forall i l, nthZ lsR i = Some l -> exists u, run_steps step1 (Z.to_nat (i + 1)) s1 = Ok u /\ line1 u = Ok l) ->
  (forall i l, nthZ ls2 i = Some l -> exists u, run_steps step2 (Z.to_nat (i + 1)) s2 = Ok u /\ line2 u = Ok l) ->
  (forall n u1 u2 l1 l2, (1 <= n)%nat -> (Z.of_nat n <= lenZ lsR)%Z -> run_steps step1 n s1 = Ok u1 -> run_steps step2 n s2 = Ok u2 -> line1 u1 = Ok l1 -> line2 u2 = Ok l2 -> l1 = l2) -> lsR = ls2.
Proof.
  intros L H1 H2 HE. apply nthZ_ext; [exact L|]. intros i Hi. destruct (nthZ_in_range lsR i ltac:(lia)) as [l1 E1]. destruct (nthZ_in_range ls2 i ltac:(lia)) as [l2 E2]. rewrite E1, E2. f_equal.
  destruct (H1 _ _ E1) as (u1 & R1 & L1). destruct (H2 _ _ E2) as (u2 & R2 & L2). apply (HE (Z.to_nat (i + 1)) u1 u2); auto; lia.
Qed.

Section Main.
Context (m : mesh) (D1 D2 : dec) (P : nspar) (types : Z -> Z -> bctype) (values : Z -> Z -> R) (name : string) (bs1 bs2 : list (body * list (list R))) (K : kernel) (h : Z -> R) (w : Z) (t0 : R) (U1 U2 q1 q2 : vec).
Hypotheses (Hs1 : mesh_setup m D1) (Hs2 : mesh_setup m D2) (Hb : bc_fits m types) (Hbo1 : bodies_ok m D1 bs1) (Hbo2 : bodies_ok m D2 bs2) (Hsm : same_points bs1 bs2).
Hypotheses (HK : getKernel name = Ok (K, w)) (Hw : wide_enough m w) (Hmin : periodic_min m 3) (Himp : impermeable m types values) (Hnc : no_convective m types).
Hypotheses (Hbn : p_bn P = 1%Z) (Hdt : 0 < p_dt P) (Hc : 0 <= p_dimp P * p_nu P) (HU : same_velocity m D1 D2 U1 U2).
Hypotheses (Hor : D1 = D2 \/ one_level P) (Hord : same_order m D1 D2 bs1 bs2).
Context (confA conf1 conf2 : ioconf) (k j : nat) (d : disk).
Hypotheses (HoA : c_out confA = c_out conf1) (Ho2 : c_out conf2 = c_out conf1) (HnA : c_nstart confA = c_nstart conf1) (H0 : (0 <= c_nstart conf1)%Z)
  (Hk : c_nt conf1 = Z.of_nat k) (Hk1 : (1 <= k)%nat) (HkA : c_nt confA = Z.of_nat (k + j)) (Hn2 : c_nstart conf2 = (c_nstart conf1 + Z.of_nat k)%Z) (Hj : c_nt conf2 = Z.of_nat j)
  (Hr : (c_nrestart conf1 | c_nstart conf2)%Z) (Hsv : (c_nsave conf1 | c_nstart conf2)%Z \/ d (solution_path (c_out conf1) (c_nstart conf2)) = None).
Let F1 := setup_facts _ _ Hs1.
Let F2 := setup_facts _ _ Hs2.
Let Hnn := impermeable_neumann m types values Hb Himp.
Local Notation nv := (n_velocity m).
Local Notation nf1 := (n_forces m bs1).
Local Notation nf2 := (n_forces m bs2).
Local Notation conv1 := (convection m D1).
Local Notation conv2 := (convection m D2).
Lemma nf_same : nf2 = nf1.
Proof. symmetry. exact (forces_same m D1 D2 bs1 bs2 Hbo1 Hbo2 Hsm). Qed.

(** Reading the state of a decoupled solver. *)
Lemma read_decoupled path dd Fl xk x0 b0 B1 B2 : x_ite x0 = x_ite xk -> e_inv m D1 P types values xk -> boundary_after m D1 types values [OpICs U1] B1 ->
  boundary_after m D2 types values [OpICs U2] B2 -> s_bc (x_ns x0) = B2 -> lenZ (s_conv (x_ns x0)) = lenZ (p_cexp P) -> lenZ (s_diff (x_ns x0)) = lenZ (p_dexp P) ->
  dd path = Some Fl -> e_holds m D1 bs1 xk Fl -> d_read_restart m D2 nf2 path dd x0 = Ok b0 ->
  wrel m D1 D2 types values P U1 U2 (x_ns xk) (x_ns b0) /\ same_forces m D1 D2 bs1 bs2 (x_f xk) (x_f b0).
Proof.
  intros Hi (Hf & Lc & Ld) HB1 HB2 EB Lc0 Ld0 EF (HS & HH & Ef) ER.
  destruct (read_other m D1 D2 types values path dd Fl (x_ns xk) (x_ns x0) [OpICs U2] F1 F2 Hb EF HS HH) as (s' & ES & St & Si & SU & Sp & Sc & Sd & HB'); [lia|lia|exact Hi|now rewrite EB|].
  destruct (load_force_ok path nf2 dd (x_f xk) (x_f x0) Fl (nf_nonneg m D2 bs2 Hbo2) EF) as (f' & EFf & Vf). { rewrite nf_same. exact Ef. }
  unfold d_read_restart in ER. rewrite ES in ER. cbn [bind] in ER. rewrite EFf in ER. cbn [bind] in ER. injection ER as <-. cbn [x_ns x_f].
  split; [|apply order_forces; auto; now rewrite <- nf_same].
  assert (Vp : exists a, (p_refp P = true -> a = 0) /\ pp m D1 D2 (s_p (x_ns xk)) (fun i => s_p s' i + a)).
  { exists 0. split; auto. apply (pp_same m D1 D2 Hs1 Hs2). intros i1 i2 x E1 E2. rewrite (Sp _ _ _ E1 E2). ring. }
  destruct (read_frel m D1 D2 types values Hs1 Hs2 Hb U1 U2 (x_ns xk) s' B1 Hnc HB1 Hf St Si SU Sc Sd HB') as [Q|(L1 & L2 & Q)].
  - destruct Hor as [Hd|[O1 O2]]; [left; exact Hd|right; split; lia].
  - left. split; [exact Q|exact Vp].
  - right. split; [exact L1|]. split; [exact L2|]. split; [exact Q|exact Vp].
Qed.

Section Fixed.
Hypothesis (Hu : uniform_around m h w bs1).
Context (vs1 ps1 fs1 vs2 ps2 fs2 : vec -> vec -> vec).
Lemma decoupled_resume monA mon1 mon2 fuelA fuel1 fuel2 sA dA lsA s1' d1 ls1 sB dB ls2 :
  writes_elsewhere (c_out conf1) mon1 ->
  d_main fuelA confA m D1 P types values name bs1 t0 U1 q1 monA conv1 vs1 ps1 fs1 d = Ok (Some (sA, dA, lsA)) ->
  d_main fuel1 conf1 m D1 P types values name bs1 t0 U1 q1 mon1 conv1 vs1 ps1 fs1 d = Ok (Some (s1', d1, ls1)) ->
  d_main fuel2 conf2 m D2 P types values name bs2 t0 U2 q2 mon2 conv2 vs2 ps2 fs2 d1 = Ok (Some (sB, dB, ls2)) ->
  exact_decoupled_program confA m D1 P types values name bs1 t0 U1 q1 vs1 ps1 fs1 d (k + j) ->
  exact_decoupled_program conf2 m D2 P types values name bs2 t0 U2 q2 vs2 ps2 fs2 d1 j ->
  ResumeSpec.same_flow m D1 D2 (p_refp P) (x_ns sA) (x_ns sB) /\
  (program_felt m D1 P types values name bs1 t0 U1 q1 -> same_forces m D1 D2 bs1 bs2 (x_f sA) (x_f sB) /\ lsA = ls1 ++ ls2).
Proof.
  intros Hm HA H1 H2 XA X2. rewrite d_main_is in HA, H1, H2.
  destruct (g_left m x_ite (e_init m D1 P types values name bs1 t0 U1 q1) (fun _ => d_write_solution m D1) (fun _ => d_write_restart m D1 nf1) (fun _ => d_read_restart m D1 nf1) (fun _ => e_line m D1 bs1) (e_step m D1 P bs1 conv1 vs1 ps1 fs1)
    (e_init_any m D1 P types values name bs1 t0 U1 q1) (fun OX => e_ite m D1 P conv1 vs1 ps1 _ _ _ _ _) (fun _ => e_rite m D1 _) (fun _ => e_ws m D1) (fun _ => e_wr m D1 _) (fun _ => e_inv m D1 P types values) (fun _ => e_holds m D1 bs1)
    (e_inv0 m D1 P types values name bs1 t0 U1 q1 Hs1 Hb) (fun n OX x0 p d x1 H => e_invR m D1 P types values Hs1 Hb _ p d x0 x1 (e_inv0 m D1 P types values name bs1 t0 U1 q1 Hs1 Hb n OX x0 H))
    (fun OX => e_invS m D1 P types values conv1 vs1 ps1 Hs1 Hb _ _ _ _ _) (fun OX xk path d' _ _ Hd => e_file m D1 bs1 Hs1 xk path d' Hd)
    confA conf1 monA mon1 fuelA fuel1 d sA dA lsA s1' d1 ls1 k j HoA HnA H0 Hm Hk Hk1 HkA HA H1) as ([O1 X1] & x0 & x1 & wA & Fl & E1 & E2 & Rk & Rj & Ik & Hik & EF & HF & lsR & EL & LR & HL).
  { rewrite <- Hn2. exact Hr. } { rewrite <- Hn2. exact Hsv. }
  rewrite <- Hn2 in Hik, EF.
  destruct (g_resumed m x_ite (e_init m D2 P types values name bs2 t0 U2 q2) (fun _ => d_write_solution m D2) (fun _ => d_write_restart m D2 nf2) (fun _ => d_read_restart m D2 nf2) (fun _ => e_line m D2 bs2) (e_step m D2 P bs2 conv2 vs2 ps2 fs2)
    (e_init_any m D2 P types values name bs2 t0 U2 q2) (fun OX => e_ite m D2 P conv2 vs2 ps2 _ _ _ _ _) (fun _ => e_rite m D2 _) conf2 mon2 fuel2 d1 sB dB ls2 ltac:(lia) ltac:(lia) H2) as ([O2 X2'] & y0 & b0 & E3 & Hiy & E4 & E5 & E6 & RB & L2 & HL2).
  rewrite Ho2 in E4, E5. rewrite EF in E5. rewrite Hj, Nat2Z.id in RB.
  destruct (e_init_any m D1 P types values name bs1 t0 U1 q1 _ _ _ E1) as [_ Hany]. destruct (Hany (c_nstart conf2)) as [x0' E1'].
  pose proof (XA O1 X1 x0 x1 wA E1 E2) as AA. pose proof (X2 O2 X2' y0 b0 [] E3 E6) as AB.
  change (e_step m D1 P bs1 conv1 vs1 ps1 fs1 (O1, X1)) with (d_advance m D1 P O1 X1 nf1 conv1 (d_assembleRHSForces m X1) vs1 ps1 fs1) in *.
  change (e_step m D2 P bs2 conv2 vs2 ps2 fs2 (O2, X2')) with (d_advance m D2 P O2 X2' nf2 conv2 (d_assembleRHSForces m X2') vs2 ps2 fs2) in *.
  unfold e_init in E1, E1', E3. pose proof E1 as E10.
  destruct (d_init_inv m D1 P types values Hs1 Hb _ _ _ _ _ _ _ _ _ E1') as (B1 & HB1 & _ & EX1 & _). destruct (d_init_inv m D2 P types values Hs2 Hb _ _ _ _ _ _ _ _ _ E3) as (B2 & HB2 & _ & EX2 & EY).
  unfold d_init in E1', E3. apply bind_ok_inv in E1'. destruct E1' as ([O1' c1] & HI1 & E1'). apply bind_ok_inv in E1'. destruct E1' as (X1' & _ & E1'). injection E1' as -> -> _.
  apply bind_ok_inv in E3. destruct E3 as ([O2' c2] & HI2 & E3). apply bind_ok_inv in E3. destruct E3 as (X2'' & _ & E3). injection E3 as -> -> _.
  destruct (read_decoupled (solution_path (c_out conf1) (c_nstart conf2)) (run_ops (f_init_ops m conf2) d1) Fl s1' y0 b0 B1 B2) as [W0 F0]; auto; try (rewrite EY; cbn [x_ns s_bc s_conv s_diff]; rewrite ?lenZ_map; reflexivity). { congruence. }
  assert (RH : mrel (SV m) (iv m D1) (iv m D2) (SF m bs1) (jf m D1 bs1) (jf m D2 bs2) (di_H X1) (di_H X2')).
  { destruct (extra_inv m D1 P _ _ _ _ _ EX1) as (Ea & Ha & BNa & EIa & _ & Qa). destruct (extra_inv m D2 P _ _ _ _ _ EX2) as (Eb & Hbb & BNb & EIb & _ & Qb).
    rewrite Qa, Qb. cbn [di_H]. eapply spread_rel; eauto. }
  assert (Hrf : forall u1 u2, vv m D1 D2 u1 u2 -> ff m D1 D2 bs1 bs2 (d_assembleRHSForces m X1 u1) (d_assembleRHSForces m X2' u2)).
  { intros u1 u2 Hv. destruct (extra_rel m D1 D2 types values Hs1 Hs2 Hb Hmin Hnn P t0 _ U1 U2 _ _ O1 O2 c1 c2 HI1 HI2 Hbn name _ _ _ _ _ _ EX1 EX2 RH) as (RE & _).
    pose proof (mr_mvec _ _ _ _ _ _ _ _ _ _ _ _ _ (numV m D1 F1) (numV m D2 F2) RE Hv) as VE.
    intros u Su. unfold d_assembleRHSForces, vscale. now rewrite (VE u Su). }
  rewrite nf_same in *. pose proof (along_later _ _ _ _ _ _ AA Rk) as AJ.
  assert (V0 : vv m D1 D2 (mvec nf1 (di_H X1) (x_f s1')) (mvec nf1 (di_H X2') (x_f b0))).
  { apply (mr_mvec _ _ _ _ _ _ _ _ _ _ _ _ _ (numF1 m D1 bs1 Hbo1) (numF2 m D1 D2 bs1 bs2 Hbo1 Hbo2 Hsm) RH). now apply (ff_same m D1 D2 bs1 bs2 Hbo1 Hbo2 Hsm). }
  assert (RUN : forall n y1 y2, (n <= j)%nat -> run_steps (d_advance m D1 P O1 X1 nf1 conv1 (d_assembleRHSForces m X1) vs1 ps1 fs1) n s1' = Ok y1 ->
    run_steps (d_advance m D2 P O2 X2' nf1 conv2 (d_assembleRHSForces m X2') vs2 ps2 fs2) n b0 = Ok y2 ->
    wrel m D1 D2 types values P U1 U2 (x_ns y1) (x_ns y2) /\ vv m D1 D2 (mvec nf1 (di_H X1) (x_f y1)) (mvec nf1 (di_H X2') (x_f y2))).
  { intros n y1 y2 Hn Ey1 Ey2. exact (dwrun m D1 D2 types values Hs1 Hs2 Hb Hmin Himp P t0 _ U1 U2 _ _ O1 O2 c1 c2 HI1 HI2 HU Hc Hdt Hbn name bs1 bs2 X1 X2' _ _ Hbo1 Hbo2 Hsm EX1 EX2 RH
      _ _ vs1 vs2 ps1 ps2 fs1 fs2 Hrf n s1' b0 y1 y2 W0 V0 (along_less _ _ _ _ _ AJ Hn) (along_less _ _ _ _ _ AB Hn) Ey1 Ey2). }
  destruct (RUN j sA sB (le_n _) Rj RB) as [WJ VJ]. split; [exact (wrel_flow m D1 D2 types values Hs1 Hs2 P U1 U2 _ _ WJ)|].
  intros Hfelt. pose proof (Hfelt _ _ _ _ E10) as Hff.
  split; [apply (ff_same m D1 D2 bs1 bs2 Hbo1 Hbo2 Hsm); exact (felt_rel m D1 D2 Hs1 bs1 bs2 X1 X2' Hbo1 Hbo2 Hsm RH _ _ Hff VJ)|].
  rewrite EL. f_equal. eapply (lines_agree _ _ (e_line m D1 bs1) (e_line m D2 bs2) s1' b0 lsR ls2); [lia|exact HL|exact HL2|].
  intros n u1 u2 l1 l2 Hn1 Hn Eu1 Eu2 El1 El2. destruct (RUN n u1 u2 ltac:(lia) Eu1 Eu2) as [WN VN].
  pose proof (forces_line_reported m D1 bs1 Hbo1 _ _ _ El1) as R1. pose proof (forces_line_reported m D2 bs2 Hbo2 _ _ _ El2) as R2.
  destruct (wrel_flow m D1 D2 types values Hs1 Hs2 P U1 U2 _ _ WN) as [T _]. rewrite <- T in R2.
  refine (forces_line_independent_of_grid m D1 D2 bs1 bs2 _ _ _ _ _ Hbo1 Hbo2 Hsm _ R1 R2).
  apply (ff_same m D1 D2 bs1 bs2 Hbo1 Hbo2 Hsm). exact (felt_rel m D1 D2 Hs1 bs1 bs2 X1 X2' Hbo1 Hbo2 Hsm RH _ _ Hff VN).
Qed.

(** The coupled solver. *)
Lemma coupled_resume monA mon1 mon2 fuelA fuel1 fuel2 sA dA lsA s1' d1 ls1 sB dB ls2 :
  writes_elsewhere (c_out conf1) mon1 ->
  ib_main fuelA confA m D1 P types values name bs1 t0 U1 q1 monA conv1 vs1 ps1 d = Ok (Some (sA, dA, lsA)) ->
  ib_main fuel1 conf1 m D1 P types values name bs1 t0 U1 q1 mon1 conv1 vs1 ps1 d = Ok (Some (s1', d1, ls1)) ->
  ib_main fuel2 conf2 m D2 P types values name bs2 t0 U2 q2 mon2 conv2 vs2 ps2 d1 = Ok (Some (sB, dB, ls2)) ->
  exact_coupled_program confA m D1 P types values name bs1 t0 U1 q1 vs1 ps1 d (k + j) ->
  exact_coupled_program conf2 m D2 P types values name bs2 t0 U2 q2 vs2 ps2 d1 j ->
  s_t sA = s_t sB /\ s_ite sA = s_ite sB /\ same_velocity m D1 D2 (s_U sA) (s_U sB) /\
  (forall n1 n2 O1 O2 a1 a2, ib_init m D1 P types values name bs1 t0 n1 U1 q1 = Ok (O1, a1) -> ib_init m D2 P types values name bs2 t0 n2 U2 q2 = Ok (O2, a2) ->
    same_velocity m D1 D2 (mvec (ib_n O1) (o_G (ib_ns O1)) (s_p sA)) (mvec (ib_n O2) (o_G (ib_ns O2)) (s_p sB))).
Proof.
  intros Hm HA H1 H2 XA X2. rewrite ib_main_is in HA, H1, H2.
  destruct (g_left m s_ite (c_init m D1 P types values name bs1 t0 U1 q1) (ib_write_solution m D1) (fun O => ib_write_restart m D1 O nf1) (fun O => ib_read_restart m D1 O nf1) (c_line m D1 bs1) (c_step m D1 P conv1 vs1 ps1)
    (c_init_any m D1 P types values name bs1 t0 U1 q1) (c_ite m D1 P conv1 vs1 ps1) (c_rite m D1 bs1) (c_ws m D1) (c_wr m D1 bs1) (c_inv m D1 P types values) (c_holds m D1 bs1)
    (c_inv0 m D1 P types values name bs1 t0 U1 q1 Hs1 Hb) (c_invR m D1 P types values name bs1 t0 U1 q1 Hs1 Hb) (c_invS m D1 P types values conv1 vs1 ps1 Hs1 Hb) (fun O s p d _ _ => c_file m D1 bs1 Hs1 O s p d)
    confA conf1 monA mon1 fuelA fuel1 d sA dA lsA s1' d1 ls1 k j HoA HnA H0 Hm Hk Hk1 HkA HA H1) as (O1 & x0 & x1 & wA & Fl & E1 & E2 & Rk & Rj & Ik & Hik & EF & HF & lsR & EL & LR & HL).
  { rewrite <- Hn2. exact Hr. } { rewrite <- Hn2. exact Hsv. }
  rewrite <- Hn2 in Hik, EF.
  destruct (g_resumed m s_ite (c_init m D2 P types values name bs2 t0 U2 q2) (ib_write_solution m D2) (fun O => ib_write_restart m D2 O nf2) (fun O => ib_read_restart m D2 O nf2) (c_line m D2 bs2) (c_step m D2 P conv2 vs2 ps2)
    (c_init_any m D2 P types values name bs2 t0 U2 q2) (c_ite m D2 P conv2 vs2 ps2) (c_rite m D2 bs2) conf2 mon2 fuel2 d1 sB dB ls2 ltac:(lia) ltac:(lia) H2) as (O2 & y0 & b0 & E3 & Hiy & E4 & E5 & E6 & RB & L2 & HL2).
  rewrite Ho2 in E4, E5. rewrite EF in E5. rewrite Hj, Nat2Z.id in RB.
  destruct (c_init_any m D1 P types values name bs1 t0 U1 q1 _ _ _ E1) as [_ Hany]. destruct (Hany (c_nstart conf2)) as [x0' E1'].
  pose proof (XA O1 x0 x1 wA E1 E2) as AA. pose proof (X2 O2 y0 b0 [] E3 E6) as AB. unfold c_step in *.
  unfold c_init in E1, E1', E3.
  destruct (ib_init_inv m D1 P types values name bs1 Hs1 Hb _ _ _ _ _ _ E1') as (B1 & HB1 & _ & _). destruct (ib_init_inv m D2 P types values name bs2 Hs2 Hb _ _ _ _ _ _ E3) as (B2 & HB2 & _ & EY).
  destruct (ib_init_ns _ _ _ _ _ _ _ _ _ _ _ _ _ (fun _ => 0) E1') as (ops1 & c1 & HI1). destruct (ib_init_ns _ _ _ _ _ _ _ _ _ _ _ _ _ (fun _ => 0) E3) as (ops2 & c2 & HI2).
  assert (HSP : forall B1 B2 h1 h2 E1 H1 E2 H2, boundary_after m D1 types values h1 B1 -> boundary_after m D2 types values h2 B2 ->
    ib_operators m D1 B1 name bs1 = Ok (E1, H1) -> ib_operators m D2 B2 name bs2 = Ok (E2, H2) -> mrel (SV m) (iv m D1) (iv m D2) (SF m bs1) (jf m D1 bs1) (jf m D2 bs2) H1 H2) by (intros; eapply spread_rel; eauto).
  destruct Ik as (Hf & Lc & Ld). destruct HF as (HS & HH & Ef).
  unfold ib_read_restart in E4. apply bind_ok_inv in E4. destruct E4 as (s' & ES & E4). apply bind_ok_inv in E4. destruct E4 as (f' & Ef' & E4). injection E4 as <-.
  set (dd := run_ops (f_init_ops m conf2) d1) in *. set (path := solution_path (c_out conf1) (c_nstart conf2)) in *.
  destruct (read_other m D1 D2 types values path dd Fl (with_p (nest_sub (ib_lay O1) 0 (s_p s1')) s1') (with_p (nest_sub (ib_lay O2) 0 (s_p y0)) y0) [OpICs U2] F1 F2 Hb E5 HS HH) as (s'' & ES' & St & Si & SU & Sp & Sc & Sd & HB').
  { rewrite EY. cbn [with_p s_conv]. rewrite lenZ_map. symmetry. exact Lc. } { rewrite EY. cbn [with_p s_diff]. rewrite lenZ_map. symmetry. exact Ld. } { cbn [with_p s_ite]. congruence. } { rewrite EY. cbn [with_p s_bc]. exact HB2. }
  rewrite ES' in ES. injection ES as <-. cbn [with_p s_t s_ite s_U s_p s_conv s_diff s_bc] in St, Si, SU, Sp, Sc, Sd.
  destruct (load_force_ok path nf2 dd (nest_sub (ib_lay O1) 1 (s_p s1')) (nest_sub (ib_lay O2) 1 (s_p y0)) Fl (nf_nonneg m D2 bs2 Hbo2) E5) as (f'' & EFf & Vf). { rewrite nf_same. exact Ef. }
  rewrite EFf in Ef'. injection Ef' as <-. rewrite nf_same in Vf.
  set (b0 := with_p (nest_join (ib_lay O2) (s_p s'') f'') s'') in *.
  pose proof (couple_rel m D1 D2 types values Hs1 Hs2 Hb Hmin Himp P t0 _ U1 U2 _ _ ops1 ops2 c1 c2 HI1 HI2 Hbn name bs1 bs2 O1 O2 q1 q2 x0' y0 Hbo1 Hbo2 Hsm E1' E3 HSP (s_p s1') _ _ _ Sp (order_forces m D1 D2 bs1 bs2 _ _ Hbo1 Hord Vf) eq_refl) as VG.
  assert (W0 : cwrel m D1 D2 types values U1 U2 O1 O2 s1' b0).
  { destruct (read_frel m D1 D2 types values Hs1 Hs2 Hb U1 U2 s1' b0 B1 Hnc HB1 Hf St Si SU Sc Sd HB') as [Q|(L1 & L2' & Q)].
    - destruct Hor as [Hd|[Q1 Q2]]; [left; exact Hd|right; split; lia].
    - left. split; [exact Q|exact VG].
    - right. split; [exact L1|]. split; [exact L2'|]. split; [exact Q|exact VG]. }
  pose proof (cwrun m D1 D2 types values Hs1 Hs2 Hb Hmin Himp P t0 _ U1 U2 _ _ ops1 ops2 c1 c2 HI1 HI2 HU Hc Hdt Hbn name bs1 bs2 O1 O2 q1 q2 x0' y0 Hbo1 Hbo2 Hsm E1' E3 HSP vs1 vs2 ps1 ps2
    j s1' b0 sA sB W0 (along_later _ _ _ _ _ _ AA Rk) AB Rj RB) as WJ.
  assert (Q : s_t sA = s_t sB /\ s_ite sA = s_ite sB /\ vv m D1 D2 (s_U sA) (s_U sB) /\ vv m D1 D2 (mvec (ib_n O1) (o_G (ib_ns O1)) (s_p sA)) (mvec (ib_n O2) (o_G (ib_ns O2)) (s_p sB))).
  { destruct WJ as [[(T & I & U & _) G]|(_ & _ & [(T & I & U & _) G])]; exact (conj T (conj I (conj U G))). }
  destruct Q as (T & I & U & G). split; [exact T|]. split; [exact I|]. split; [now apply (vv_same m D1 D2 Hs1 Hs2)|].
  intros n1 n2 P1 P2 g1 g2 G1 G2. destruct (c_init_any m D1 P types values name bs1 t0 U1 q1 _ _ _ G1) as [_ A1]. destruct (A1 (c_nstart conf2)) as [z1 Z1]. unfold c_init in Z1. rewrite E1' in Z1. injection Z1 as <- _.
  destruct (c_init_any m D2 P types values name bs2 t0 U2 q2 _ _ _ G2) as [_ A2]. destruct (A2 (c_nstart conf2)) as [z2 Z2]. unfold c_init in Z2. rewrite E3 in Z2. injection Z2 as <- _.
  now apply (vv_same m D1 D2 Hs1 Hs2).
Qed.
End Fixed.

Section Moving.
Context (mo1 mo2 : motion) (pos : R -> list (list (list R))) (vel : R -> Z -> Z -> Z -> R) (vs1 ps1 vs2 ps2 : vec -> vec -> vec) (fs1 fs2 : mat -> vec -> vec -> vec).
Hypotheses (Hmo1 : prescribed m D1 bs1 mo1 pos vel) (Hmo2 : prescribed m D2 bs2 mo2 pos vel) (Hu : forall t, uniform_around m h w (bodies_at bs1 (pos t))).
Lemma moving_resume monA mon1 mon2 fuelA fuel1 fuel2 sA dA lsA s1' d1 ls1 sB dB ls2 :
  writes_elsewhere (c_out conf1) mon1 -> (1 <= j)%nat ->
  r_main fuelA confA m D1 P types values name bs1 mo1 t0 U1 q1 monA conv1 vs1 ps1 fs1 d = Ok (Some (sA, dA, lsA)) ->
  r_main fuel1 conf1 m D1 P types values name bs1 mo1 t0 U1 q1 mon1 conv1 vs1 ps1 fs1 d = Ok (Some (s1', d1, ls1)) ->
  r_main fuel2 conf2 m D2 P types values name bs2 mo2 t0 U2 q2 mon2 conv2 vs2 ps2 fs2 d1 = Ok (Some (sB, dB, ls2)) ->
  exact_moving_program confA m D1 P types values name bs1 mo1 t0 U1 q1 vs1 ps1 fs1 d (k + j) ->
  exact_moving_program conf2 m D2 P types values name bs2 mo2 t0 U2 q2 vs2 ps2 fs2 d1 j ->
  (forall n O a i B X, r_init m D1 P types values name bs1 t0 n U1 q1 = Ok (O, a) -> (1 <= i <= j)%nat -> (exists hist, boundary_after m D1 types values hist B) ->
     createExtraOperators m D1 B P O name (bodies_at bs1 (pos (s_t (x_ns (r_x s1')) + INR i * p_dt P))) = Ok X -> forces_felt m nf1 X) ->
  ResumeSpec.same_flow m D1 D2 (p_refp P) (x_ns (r_x sA)) (x_ns (r_x sB)) /\
  same_forces m D1 D2 bs1 bs2 (x_f (r_x sA)) (x_f (r_x sB)) /\ same_points (r_bodies sA) (r_bodies sB) /\ lsA = ls1 ++ ls2.
Proof.
  intros Hm Hj1 HA H1 H2 XA X2 Hfelt. rewrite r_main_is in HA, H1, H2.
  assert (Hany : forall D bs U q n O s0, v_init m D P types values name bs t0 U q n = Ok (O, s0) -> r_ite s0 = n /\ (forall n', exists s0', v_init m D P types values name bs t0 U q n' = Ok (O, s0'))) by (intros D bs U q n O s0 HI; exact (proj2 (v_init_any _ _ _ _ _ _ _ _ _ _ _ _ _ HI))).
  assert (Hite : forall D conv vs ps mo fs O s s', v_step m D P name conv vs ps mo fs O s = Ok s' -> r_ite s' = (r_ite s + 1)%Z) by (intros D conv vs ps mo fs O s s' HH; exact (proj1 (v_ite _ _ _ _ _ _ _ _ _ O s s' HH))).
  assert (Hrite : forall D (O : nsops) p d0 s s', r_read_restart m D p d0 s = Ok s' -> r_ite s' = r_ite s) by (intros D O p d0 s s' HH; exact (e_rite _ _ _ _ _ _ _ (proj1 (v_read_inv _ _ _ _ _ _ HH)))).
  destruct (g_left m r_ite (v_init m D1 P types values name bs1 t0 U1 q1) (fun _ path s => d_write_solution m D1 path (r_x s)) (fun _ path s => d_write_restart m D1 (n_forces m (r_bodies s)) path (r_x s))
    (fun _ => r_read_restart m D1) (fun _ => v_line m D1) (v_step m D1 P name conv1 vs1 ps1 mo1 fs1) (Hany D1 bs1 U1 q1) (Hite D1 conv1 vs1 ps1 mo1 fs1) (Hrite D1) (fun _ p s => e_ws m D1 p (r_x s)) (fun _ p s => e_wr m D1 _ p (r_x s))
    (fun _ => v_inv m D1 P types values bs1) (fun _ s Fl => e_holds m D1 bs1 (r_x s) Fl) (v_inv0 m D1 P types values name bs1 t0 U1 q1 Hs1 Hb)
    (fun n O s0 p d x1 HI => v_invR m D1 P types values bs1 Hs1 Hb p d s0 x1 (v_inv0 m D1 P types values name bs1 t0 U1 q1 Hs1 Hb n O s0 HI)) (v_invS m D1 P types values name bs1 conv1 vs1 ps1 Hs1 Hb mo1 pos vel fs1 Hmo1)) with
    (confA := confA) (conf1 := conf1) (monA := monA) (mon1 := mon1) (fuelA := fuelA) (fuel1 := fuel1) (d := d) (sA := sA) (dA := dA) (lsA := lsA) (s1' := s1') (d1 := d1) (ls1 := ls1) (k := k) (j := j)
    as (O1 & x0 & x1 & wA & Fl & E1 & E2 & Rk & Rj & Ik & Hik & EF & HF & lsR & EL & LR & HL); auto.
  { intros O sk path d' _ [_ Sk] Hd. rewrite (v_nf m bs1 _ Sk). exact (e_file m D1 bs1 Hs1 (r_x sk) path d' Hd). }
  { rewrite <- Hn2. exact Hr. } { rewrite <- Hn2. exact Hsv. }
  rewrite <- Hn2 in Hik, EF.
  destruct (g_resumed m r_ite (v_init m D2 P types values name bs2 t0 U2 q2) (fun _ path s => d_write_solution m D2 path (r_x s)) (fun _ path s => d_write_restart m D2 (n_forces m (r_bodies s)) path (r_x s))
    (fun _ => r_read_restart m D2) (fun _ => v_line m D2) (v_step m D2 P name conv2 vs2 ps2 mo2 fs2) (Hany D2 bs2 U2 q2) (Hite D2 conv2 vs2 ps2 mo2 fs2) (Hrite D2) conf2 mon2 fuel2 d1 sB dB ls2 ltac:(lia) ltac:(lia) H2)
    as (O2 & y0 & b0 & E3 & Hiy & E4 & E5 & E6 & RB & L2 & HL2).
  rewrite Ho2 in E4, E5. rewrite EF in E5. rewrite Hj, Nat2Z.id in RB.
  destruct (Hany _ _ _ _ _ _ _ E1) as [_ Hn]. destruct (Hn (c_nstart conf2)) as [x0' E1']. clear Hn.
  pose proof (XA O1 x0 x1 wA E1 E2) as AA. pose proof (X2 O2 y0 b0 [] E3 E6) as AB. unfold v_step in *.
  pose proof (v_inv0 m D2 P types values name bs2 t0 U2 q2 Hs2 Hb _ _ _ E3) as I2. pose proof (v_invR m D2 P types values bs2 Hs2 Hb _ _ _ _ I2 E4) as I2b.
  destruct (v_init_any m D1 P types values name bs1 t0 U1 q1 _ _ _ E1') as ((X1 & x0e & E1e & _) & _). destruct (v_init_any m D2 P types values name bs2 t0 U2 q2 _ _ _ E3) as ((X2e & y0e & E3e & Ey0) & _).
  unfold e_init in E1e, E3e.
  destruct (d_init_inv m D1 P types values Hs1 Hb _ _ _ _ _ _ _ _ _ E1e) as (B1 & HB1 & _). destruct (d_init_inv m D2 P types values Hs2 Hb _ _ _ _ _ _ _ _ _ E3e) as (B2 & HB2 & _ & _ & EY).
  unfold d_init in E1e, E3e. apply bind_ok_inv in E1e. destruct E1e as ([O1' c1] & HI1 & E1e). apply bind_ok_inv in E1e. destruct E1e as (X1' & _ & E1e). injection E1e as -> _ _.
  apply bind_ok_inv in E3e. destruct E3e as ([O2' c2] & HI2 & E3e). apply bind_ok_inv in E3e. destruct E3e as (X2'' & _ & E3e). injection E3e as -> _ _.
  destruct (v_read_inv m D2 _ _ _ _ E4) as [ER EB]. rewrite (v_nf m bs2 _ (proj2 I2)) in ER.
  destruct (read_decoupled (solution_path (c_out conf1) (c_nstart conf2)) (run_ops (f_init_ops m conf2) d1) Fl (r_x s1') (r_x y0) (r_x b0) B1 B2) as [W0 F0]; auto; try (rewrite Ey0; cbn [r_x]; rewrite EY; cbn [x_ns s_bc s_conv s_diff]; rewrite ?lenZ_map; reflexivity).
  { change (r_ite y0 = r_ite s1'). congruence. } { exact (proj1 Ik). }
  assert (HSP : forall t B1 B2 h1 h2 E1 H1 E2 H2, boundary_after m D1 types values h1 B1 -> boundary_after m D2 types values h2 B2 ->
    ib_operators m D1 B1 name (bodies_at bs1 (pos t)) = Ok (E1, H1) -> ib_operators m D2 B2 name (bodies_at bs2 (pos t)) = Ok (E2, H2) ->
    mrel (SV m) (iv m D1) (iv m D2) (SF m (bodies_at bs1 (pos t))) (jf m D1 (bodies_at bs1 (pos t))) (jf m D2 (bodies_at bs2 (pos t))) H1 H2).
  { intros t Ba Bb h1 h2 Ea Ha Eb Hbb. intros. refine (spread_rel m D1 D2 types values Hs1 Hs2 Hb h name K w _ _ Ba Bb h1 h2 Ea Ha Eb Hbb (Hu t) HK Hw (ok_at _ _ _ _ Hbo1 (proj1 (Hmo1 t))) (ok_at _ _ _ _ Hbo2 (proj1 (Hmo2 t))) _ _ _ _ _); auto.
    unfold same_points. rewrite !at_snd; auto; [exact (shape_len _ _ (proj1 (Hmo2 t)))|exact (shape_len _ _ (proj1 (Hmo1 t)))]. }
  pose proof (along_later _ _ _ _ _ _ AA Rk) as AJ.
  assert (RUN : forall n y1 y2, (1 <= n <= j)%nat -> run_steps (r_advance m D1 P O1 name mo1 conv1 vs1 ps1 fs1) n s1' = Ok y1 -> run_steps (r_advance m D2 P O2 name mo2 conv2 vs2 ps2 fs2) n b0 = Ok y2 ->
    rwrel m D1 D2 types values P U1 U2 bs1 bs2 y1 y2 /\ same_points (r_bodies y1) (r_bodies y2)).
  { intros n y1 y2 Hn Ey1 Ey2. destruct (rwrun m D1 D2 types values Hs1 Hs2 Hb Hmin Himp P t0 _ U1 U2 _ _ O1 O2 c1 c2 HI1 HI2 HU Hc Hdt Hbn name bs1 bs2 mo1 mo2 pos vel Hbo1 Hbo2 Hmo1 Hmo2 vs1 vs2 ps1 ps2 fs1 fs2 HSP
      n s1' b0 y1 y2) as [Q1 Q2]; auto.
    - intros i Hi B X HBx EX. exact (Hfelt _ _ _ i B X E1 ltac:(lia) HBx EX).
    - exact (conj W0 F0).
    - apply (along_less _ _ _ _ _ AJ). lia.
    - apply (along_less _ _ _ _ _ AB). lia.
    - split; [exact Q1|]. apply Q2. lia. }
  destruct (RUN j sA sB ltac:(lia) Rj RB) as [[WJ FJ] PJ]. split; [exact (wrel_flow m D1 D2 types values Hs1 Hs2 P U1 U2 _ _ WJ)|]. split; [exact FJ|]. split; [exact PJ|].
  rewrite EL. f_equal. eapply (lines_agree _ _ (v_line m D1) (v_line m D2) s1' b0 lsR ls2); [lia|exact HL|exact HL2|].
  intros n u1 u2 l1 l2 Hn1 Hn Eu1 Eu2 El1 El2. destruct (RUN n u1 u2 ltac:(lia) Eu1 Eu2) as [[WN FN] PN].
  destruct (v_steps m D1 P types values name bs1 conv1 vs1 ps1 Hs1 Hb mo1 pos vel fs1 Hmo1 O1 _ _ _ Ik Eu1) as (J1 & _). destruct (v_steps m D2 P types values name bs2 conv2 vs2 ps2 Hs2 Hb mo2 pos vel fs2 Hmo2 O2 _ _ _ I2b Eu2) as (J2 & _).
  unfold v_line in El1, El2. rewrite (v_fst bs1 _ (proj2 J1)) in El1. rewrite (v_fst bs2 _ (proj2 J2)) in El2.
  pose proof (forces_line_reported m D1 bs1 Hbo1 _ _ _ El1) as R1. pose proof (forces_line_reported m D2 bs2 Hbo2 _ _ _ El2) as R2.
  destruct (wrel_flow m D1 D2 types values Hs1 Hs2 P U1 U2 _ _ WN) as [T _]. rewrite <- T in R2.
  exact (forces_line_independent_of_grid m D1 D2 bs1 bs2 _ _ _ _ _ Hbo1 Hbo2 Hsm FN R1 R2).
Qed.
End Moving.
End Main.
