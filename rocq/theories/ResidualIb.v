(** A time step of the immersed-boundary solvers with approximate linear
    solvers. *)
From Coq Require Import ZifyBool String.
From Verif Require Import Prelude ZSum RSum TypesModel GridModel GridSpec GridProof MeshProof IndexModel IndexSpec IndexProof
  BoundaryModel BoundarySpec BoundaryProof OperatorModel OperatorSpec OperatorProof BStateProof LapProof DivProof GradProof AdjProof SymProof
  MatModel BnModel BnSpec BnProof NSModel NSSpec NSProof NSPin BodyModel BodySpec DeltaModel DeltaSpec IbpmModel IbpmSpec IbpmProof IbpmStep IbpmDec
  ResidualSpec ResidualProof.
Local Open Scope R_scope.

Lemma coupled_residual_lemma m D P types values name bodies t0 n0 U0 p0 O s0 conv vs ps k s s2 rhs1 s1 b u :
  mesh_setup m D -> bc_fits m types -> bodies_ok m D bodies -> periodic_min m 2 -> p_refp P = false ->
  ib_init m D P types values name bodies t0 n0 U0 p0 = Ok (O, s0) -> run_steps (ib_advance m D P O conv vs ps) k s0 = Ok s ->
  ib_advance m D P O conv vs ps s = Ok s2 ->
  rhs_velocity (ib_n O) m D P (ib_ns O) conv (begun P s) = Ok (rhs1, s1) ->
  ib_assembleRHSPoisson m D P O (vs (s_U s) rhs1) (s_bc s1) = Ok b ->
  extends m D (s_bc s2) (s_U s2) u ->
  exists B E H, boundary_after m D types values [OpICs U0] B /\ ib_operators m D B name bodies = Ok (E, H) /\
    let r := residual (ib_n O) (o_DBNG (ib_ns O)) (ps (s_dP s) b) b in
    (forall i id p, nthZ (ib_lay O) i = Some (0%Z, id) -> nthZ (field_layout D 3) id = Some p -> net_flux m false u p = r i) /\
    (forall i row, nthZ (ib_lay O) i = Some (1%Z, row) -> mvec (n_velocity m) E (s_U s2) row = r i) /\
    sumR (fun p => net_flux m false u p * net_flux m false u p) (cells m) + norm2 (n_forces m bodies) (mvec (n_velocity m) E (s_U s2)) = norm2 (ib_n O) r.
Proof.
  intros Hset Hb Hbo Hmin Href HI Hk Ha E1 E2 Hext. pose proof (setup_facts _ _ Hset) as F.
  destruct (ib_steps_boundary m D P types values name bodies Hset Hb _ _ _ _ _ _ _ _ _ _ _ HI Hk) as (h1 & Hh).
  destruct (ib_init_inv m D P types values name bodies Hset Hb _ _ _ _ _ _ HI) as (B0 & HB0 & EO & _).
  destruct (ib_createOperators_inv m D P name bodies _ _ EO) as (d & g & l & E & H & BN & Ed & Eg & El & EI & EB & EOps). cbv zeta in EOps. subst O.
  destruct (ib_advance_inv m D P _ _ _ _ _ _ Ha) as (rhs1' & s1' & b' & X1 & X2 & XB1 & XdP & XU & _ & XB2 & _).
  rewrite E1 in X1. injection X1 as <- <-. rewrite E2 in X2. injection X2 as <-.
  cbn [ib_ns ib_D ib_lay ib_n o_D o_G o_L o_A o_BNG o_DBNG] in *. rewrite Href in *.
  set (nv := n_velocity m) in *. set (np := n_pressure m) in *. set (nf := n_forces m bodies) in *.
  set (Lay := nest_layout (nranks D) (pressure_l D) (bp_nLclAllProcs (m_dim m) (map fst bodies))) in *.
  pose proof (bc_call_inv m D types values _ _ _ _ F Hb Hh XB1) as HB1. pose proof (bc_call_inv m D types values _ _ _ _ F Hb HB1 XB2) as HB2.
  rewrite <- app_assoc in HB1. rewrite <- !app_assoc in HB2.
  assert (Hics : has_ics [OpICs U0]) by (exists U0; now left).
  destruct (divergence_lemma m D types values false [OpICs U0] (h1 ++ [OpEqs (s_U s) (p_dt P)]) (s_U s2) B0 (s_bc s1) (s_bc s2) u F Hb Hics Hmin HB0 HB1) as (op & c & Eop & Ec & Hdiv); auto.
  { rewrite <- !app_assoc. exact HB2. }
  rewrite Ed in Eop. injection Eop as <-.
  set (q := ps (s_dP s) b) in *. set (U1 := vs (s_U s) rhs1) in *. set (Dm := entry (op_log d)) in *.
  set (G := nest_cols Lay (entry g) (mscale (-1) H)) in *. set (Dc := nest_rows Lay Dm E) in *.
  set (A := mmul nv Dc (mmul nv BN G)) in *.
  exists B0, E, H. split; [exact HB0|]. split; [exact EI|]. cbv zeta.
  set (rhs := fun i => match nthZ Lay i with Some (b, k) => if (b =? 0)%Z then mvec nv Dc U1 i + c k else mvec nv Dc U1 i | None => mvec nv Dc U1 i end).
  assert (Eb : b = rhs).
  { unfold ib_assembleRHSPoisson in E2. cbn [ib_ns ib_D ib_lay o_D] in E2. fold nv in E2. rewrite Ec in E2. cbn [bind] in E2. rewrite Href in E2. injection E2 as <-. reflexivity. }
  assert (Key : forall i, mvec nv Dc (s_U s2) i = mvec nv Dc U1 i - mvec (np + nf) A q i).
  { intros i. rewrite XU, mvec_axpy. rewrite <- mvec_mmul. fold A. lra. }
  assert (K0 : forall i id p, nthZ Lay i = Some (0%Z, id) -> nthZ (field_layout D 3) id = Some p -> net_flux m false u p = residual (np + nf) A q b i).
  { intros i id p Ei Np. rewrite <- (Hdiv _ _ Np). change (mvec nv Dm (s_U s2) id + c id = residual (np + nf) A q b i).
    unfold residual. rewrite Eb. unfold rhs. rewrite Ei. cbn [Z.eqb]. pose proof (Key i) as Ki.
    unfold Dc at 1 in Ki. unfold Lay in Ki at 1. rewrite (nest_row_mvec m D bodies Dm E _ i 0 _ Ei) in Ki. cbn [Z.eqb] in Ki. fold nv in Ki. lra. }
  assert (K1 : forall i row, nthZ Lay i = Some (1%Z, row) -> mvec nv E (s_U s2) row = residual (np + nf) A q b i).
  { intros i row Ei. unfold residual. rewrite Eb. unfold rhs. rewrite Ei. cbn [Z.eqb]. pose proof (Key i) as Ki.
    unfold Dc at 1 in Ki. unfold Lay in Ki at 1. rewrite (nest_row_mvec m D bodies Dm E _ i 1 _ Ei) in Ki. cbn [Z.eqb] in Ki. fold nv in Ki. lra. }
  split; [exact K0|]. split; [exact K1|].
  unfold norm2. set (r := residual (np + nf) A q b) in *. set (W := mvec nv E (s_U s2)) in *.
  set (fl := fun id => match nthZ (field_layout D 3) id with Some p => net_flux m false u p | None => 0 end).
  rewrite (lay_sum m D bodies Hset Hbo (fun v => if (fst v =? 0)%Z then fl (snd v) * fl (snd v) else W (snd v) * W (snd v))).
  - cbn [fst snd Z.eqb]. f_equal. symmetry. apply (sum_cells m D); [exact F|]. intros id p Np. unfold fl. now rewrite Np.
  - intros i [b0 k0] Ei. cbn [fst snd]. pose proof (proj1 (lay_In m D bodies Hset Hbo b0 k0) (nthZ_In _ _ _ Ei)) as [(-> & Hk0)|(-> & Hk0)].
    + cbn [Z.eqb]. destruct (nthZ (field_layout D 3) k0) as [p|] eqn:Np.
      * unfold fl. rewrite Np. now rewrite (K0 i k0 p Ei Np).
      * exfalso. destruct (pressure_ids m D k0 F Hk0) as (p0' & Np'). congruence.
    + cbn [Z.eqb]. now rewrite (K1 i k0 Ei).
Qed.

(** The forces equation of the decoupled step. *)
Lemma slip_residual m D P O B name bodies X conv rhs_f ub vs ps fs x x2 rhs0 s1 :
  createExtraOperators m D B P O name bodies = Ok X ->
  (forall U i, (0 <= i < n_forces m bodies)%Z -> rhs_f U i = ub i - mvec (n_velocity m) (di_E X) U i) ->
  d_advance m D P O X (n_forces m bodies) conv rhs_f vs ps fs x = Ok x2 ->
  rhs_velocity (n_pressure m) m D P O conv (begun P (x_ns x)) = Ok (rhs0, s1) ->
  let b := rhs_f (vs (s_U (x_ns x)) (vaxpy rhs0 1 (mvec (n_forces m bodies) (di_H X) (x_f x)))) in
  forall row, (0 <= row < n_forces m bodies)%Z ->
    mvec (n_velocity m) (di_E X) (s_U (x_ns x2)) row + mvec (n_velocity m) (di_E X) (mvec (n_pressure m) (o_BNG O) (s_dP (x_ns x2))) row
    = ub row - residual (n_forces m bodies) (di_EBNH X) (fs (x_df x) b) b row.
Proof.
  intros HX Hrf Ha E1 b row Hrow. destruct (extra_inv m D P _ _ _ _ _ HX) as (E & H & BN & EI & EB & ->). cbn [di_E di_H di_BNH di_EBNH] in *.
  destruct (d_advance_inv m D P _ _ _ _ _ _ _ _ _ _ Ha) as (rhs0' & s1' & rhs2 & X1 & Xdf & _ & _ & _ & XU & _). cbv zeta in *. cbn [di_E di_H di_BNH di_EBNH] in *.
  rewrite E1 in X1. injection X1 as <- <-. rewrite XU, !mvec_axpy. rewrite <- mvec_mmul, Xdf. fold b. unfold residual.
  assert (Eb : b row = ub row - mvec (n_velocity m) E (vs (s_U (x_ns x)) (vaxpy rhs0 1 (mvec (n_forces m bodies) H (x_f x)))) row) by (unfold b; now rewrite Hrf).
  rewrite Eb. lra.
Qed.

(** The Poisson equation of the decoupled step. *)
Lemma decoupled_flux m D P types values O B0 U0 h1 X nf conv rhs_f vs ps fs x x2 rhs0 s1 b u :
  mesh_setup m D -> bc_fits m types -> periodic_min m 2 -> p_refp P = false ->
  createOperators m D B0 P = Ok O -> boundary_after m D types values [OpICs U0] B0 ->
  boundary_after m D types values ([OpICs U0] ++ h1) (s_bc (x_ns x)) ->
  d_advance m D P O X nf conv rhs_f vs ps fs x = Ok x2 ->
  rhs_velocity (n_pressure m) m D P O conv (begun P (x_ns x)) = Ok (rhs0, s1) ->
  let U1 := vs (s_U (x_ns x)) (vaxpy rhs0 1 (mvec nf (di_H X) (x_f x))) in
  let U2 := vaxpy U1 1 (mvec nf (di_BNH X) (x_df x2)) in
  assembleRHSPoisson m D P O U2 (s_bc s1) = Ok b ->
  extends m D (s_bc (x_ns x2)) (s_U (x_ns x2)) u ->
  forall id p, nthZ (field_layout D 3) id = Some p -> net_flux m false u p = residual (n_pressure m) (o_DBNG O) (ps (s_dP (x_ns x)) b) b id.
Proof.
  intros Hset Hb Hmin Href EO HB0 Hh Ha E1 U1 U2 E2 Hext id p Np. pose proof (setup_facts _ _ Hset) as F.
  destruct (createOperators_inv _ _ _ _ _ EO) as (d & g & l & BN & Ed & Eg & El & EB & ->).
  destruct (d_advance_inv m D P _ _ _ _ _ _ _ _ _ _ Ha) as (rhs0' & s1' & b' & X1 & Xdf & X2 & XB1 & XdP & XU & _ & _ & XB2 & _). cbv zeta in *.
  rewrite E1 in X1. injection X1 as <- <-. fold U1 in Xdf, X2, XU. fold U2 in X2, XU. rewrite E2 in X2. injection X2 as <-.
  cbn [o_D o_G o_L o_A o_BNG o_DBNG] in *. rewrite Href in *.
  pose proof (bc_call_inv m D types values _ _ _ _ F Hb Hh XB1) as HB1. pose proof (bc_call_inv m D types values _ _ _ _ F Hb HB1 XB2) as HB2.
  rewrite <- app_assoc in HB1. rewrite <- !app_assoc in HB2.
  assert (Hics : has_ics [OpICs U0]) by (exists U0; now left).
  set (s := x_ns x) in *. set (s2 := x_ns x2) in *.
  destruct (divergence_lemma m D types values false [OpICs U0] (h1 ++ [OpEqs (s_U s) (p_dt P)]) (s_U s2) B0 (s_bc s1) (s_bc s2) u F Hb Hics Hmin HB0 HB1) as (op & c & Eop & Ec & Hdiv); auto.
  { rewrite <- !app_assoc. exact HB2. }
  rewrite Ed in Eop. injection Eop as <-.
  unfold assembleRHSPoisson in E2. cbn [o_D] in E2. rewrite Ec, Href in E2. cbn [bind] in E2. injection E2 as <-.
  rewrite <- (Hdiv _ _ Np). unfold residual.
  match goal with |- _ = ?v => change (mvec (n_velocity m) (entry (op_log d)) (s_U s2) id + c id = v) end.
  rewrite XU, mvec_axpy, <- mvec_mmul, XdP. unfold vaxpy. lra.
Qed.
