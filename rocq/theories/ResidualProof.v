(** A time step with approximate linear solvers. *)
From Coq Require Import ZifyBool.
From Verif Require Import Prelude ZSum RSum TypesModel GridModel GridSpec GridProof MeshProof IndexModel IndexSpec IndexProof
  BoundaryModel BoundarySpec BoundaryProof OperatorModel OperatorSpec OperatorProof BStateProof LapProof DivProof GradProof AdjProof SymProof
  MatModel BnModel BnSpec BnProof NSModel NSSpec NSProof NSPin ResidualSpec.
Local Open Scope R_scope.

(** The flux of the new velocity in terms of the full Poisson system. *)
Lemma step_flux m D P types values t0 n0 U0 p0 ops s0 conv vs ps k s s2 rhs1 s1 b u :
  mesh_setup m D -> bc_fits m types -> periodic_min m 2 ->
  ns_init m D P types values t0 n0 U0 p0 = Ok (ops, s0) -> ns_steps m D P ops conv vs ps k s0 = Ok s ->
  advance m D P ops conv vs ps s = Ok s2 ->
  assembleRHSVelocity m D P ops conv (mkNS (s_t s + p_dt P) (s_ite s + 1) (s_U s) (s_p s) (s_dP s) (s_conv s) (s_diff s) (s_bc s)) = Ok (rhs1, s1) ->
  assembleRHSPoisson m D P ops (vs (s_U s) rhs1) (s_bc s1) = Ok b ->
  extends m D (s_bc s2) (s_U s2) u ->
  exists c, correction_mult m (nranks D) (o_D ops) (s_bc s1) = Ok c /\ s_dP s2 = ps (s_dP s) b /\
    let rhs := vaxpy c 1 (mvec (n_velocity m) (entry (op_log (o_D ops))) (vs (s_U s) rhs1)) in
    b = (if p_refp P then fun i => if (i =? 0)%Z then 0 else rhs i else rhs) /\
    o_DBNG ops = (if p_refp P then pin (unpinned m ops) else unpinned m ops) /\
    (forall id p, nthZ (field_layout D 3) id = Some p -> net_flux m false u p = residual (n_pressure m) (unpinned m ops) (s_dP s2) rhs id) /\
    (no_normal_neumann m types -> forall j, (0 <= j)%Z -> zsum (fun i => unpinned m ops i j) 0 (n_pressure m) = 0).
Proof.
  intros Hset Hb Hmin HI Hk Ha E1 E2 Hext. pose proof (setup_facts _ _ Hset) as F.
  destruct (steps_boundary _ _ _ _ _ _ _ _ _ _ _ _ _ _ _ _ F Hb HI Hk) as (h1 & Hh).
  destruct (ns_init_inv _ _ _ _ _ _ _ _ _ _ _ F Hb HI) as (B0 & HB0 & EO & _).
  destruct (createOperators_inv _ _ _ _ _ EO) as (d & g & l & BN & Ed & Eg & El & EB & ->).
  destruct (advance_inv _ _ _ _ _ _ _ _ _ Ha) as (rhs1' & s1' & b' & X1 & X2 & XB1 & XdP & XU & _ & XB2 & _).
  rewrite E1 in X1. injection X1 as <- <-. rewrite E2 in X2. injection X2 as <-.
  unfold unpinned. cbn [o_D o_G o_L o_A o_BNG o_DBNG] in *.
  pose proof (bc_call_inv m D types values _ _ _ _ F Hb Hh XB1) as HB1. pose proof (bc_call_inv m D types values _ _ _ _ F Hb HB1 XB2) as HB2.
  rewrite <- app_assoc in HB1. rewrite <- !app_assoc in HB2.
  assert (Hics : has_ics [OpICs U0]) by (exists U0; now left).
  destruct (divergence_lemma m D types values false [OpICs U0] (h1 ++ [OpEqs (s_U s) (p_dt P)]) (s_U s2) B0 (s_bc s1) (s_bc s2) u F Hb Hics Hmin HB0 HB1) as (op & c & Eop & Ec & Hdiv); auto.
  { rewrite <- !app_assoc. exact HB2. }
  rewrite Ed in Eop. injection Eop as <-. exists c. split; [exact Ec|]. split; [exact XdP|]. cbv zeta.
  split.
  { unfold assembleRHSPoisson in E2. cbn [o_D] in E2. rewrite Ec in E2. cbn [bind] in E2. injection E2 as <-. reflexivity. }
  split; [reflexivity|]. split.
  - intros id p Np. rewrite <- (Hdiv _ _ Np). rewrite XdP.
    change (mvec (n_velocity m) (entry (op_log d)) (s_U s2) id + c id = residual (n_pressure m) (mmul (n_velocity m) (entry (op_log d)) (mmul (n_velocity m) BN (entry g))) (ps (s_dP s) b) (vaxpy c 1 (mvec (n_velocity m) (entry (op_log d)) (vs (s_U s) rhs1))) id).
    rewrite XU. rewrite mvec_axpy. rewrite <- mvec_mmul. unfold residual, vaxpy. lra.
  - intros Hn j Hj. unfold mmul at 1, zsum. rewrite sumR_swap. apply sumR_zero. intros q Hq. apply zrange_In in Hq. rewrite sumR_scal_r.
    pose proof (div_column_sum m D types values [OpICs U0] q F Hb Hics Hmin Hn Hq) as Z0.
    rewrite (createDivergence_ok m D types values false [OpICs U0] B0 F Hb HB0) in Ed. injection Ed as <-. unfold zsum in Z0. rewrite Z0. lra.
Qed.

Lemma pin_residual n A x b i : (0 < n)%Z -> (0 < i < n)%Z ->
  residual n A x b i = residual n (pin A) x (fun i => if (i =? 0)%Z then 0 else b i) i
    + A i 0%Z * residual n (pin A) x (fun i => if (i =? 0)%Z then 0 else b i) 0%Z.
Proof.
  intros Hn Hi. unfold residual. cbn [Z.eqb]. replace (i =? 0)%Z with false by lia.
  assert (E0 : mvec n (pin A) x 0%Z = x 0%Z).
  { unfold mvec, zsum. rewrite (sumR_single _ _ 0%Z); [|apply zrange_NoDup|apply zrange_In; lia|].
    - unfold pin. cbn. lra.
    - intros j _ Hj. unfold pin. cbn [Z.eqb orb]. destruct j; [contradiction|lra|lra]. }
  assert (Ei : mvec n A x i = mvec n (pin A) x i + A i 0%Z * x 0%Z).
  { unfold mvec. rewrite <- (zsum_single 0 (fun l => A i l * x l) n) by lia. unfold zsum. rewrite <- sumR_plus. apply sumR_ext. intros j Hj.
    apply zrange_In in Hj. unfold pin. replace (i =? 0)%Z with false by lia. cbn [orb]. destruct (Z.eqb_spec j 0) as [->|].
    - replace (i =? 0)%Z with false by lia. lra.
    - lra. }
  rewrite E0, Ei. lra.
Qed.

Lemma residual_total n A x b : (forall j, (0 <= j)%Z -> zsum (fun i => A i j) 0 n = 0) -> zsum (residual n A x b) 0 n = zsum b 0 n.
Proof.
  intros H. unfold residual, zsum. rewrite sumR_minus. unfold mvec, zsum. rewrite sumR_swap.
  rewrite (sumR_zero (fun y => sumR (fun x0 => A x0 y * x y) _)); [lra|].
  intros j Hj. apply zrange_In in Hj. rewrite sumR_scal_r. unfold zsum in H. rewrite H by lia. lra.
Qed.

(** C55 without the exact momentum solve. *)
Lemma step_momentum m D P types values t0 n0 U0 p0 ops s0 conv vs ps s s2 rhs1 s1 :
  mesh_setup m D -> bc_fits m types -> p_dt P <> 0 ->
  ns_init m D P types values t0 n0 U0 p0 = Ok (ops, s0) ->
  advance m D P ops conv vs ps s = Ok s2 ->
  assembleRHSVelocity m D P ops conv (mkNS (s_t s + p_dt P) (s_ite s + 1) (s_U s) (s_p s) (s_dP s) (s_conv s) (s_diff s) (s_bc s)) = Ok (rhs1, s1) ->
  let nv := n_velocity m in let np := n_pressure m in let L := entry (op_log (o_L ops)) in let c := p_dimp P * p_nu P in
  forall i, (0 <= i < nv)%Z ->
    mvec nv (implicit_matrix mident (p_dt P) c L) (s_U s2) i + mvec np (o_G ops) (s_dP s2) i
    = rhs1 i + mvec nv (mpow nv (mscale (c * p_dt P) L) (Z.to_nat (p_bn P))) (mvec np (o_G ops) (s_dP s2)) i
      - residual nv (o_A ops) (vs (s_U s) rhs1) rhs1 i.
Proof.
  intros Hset Hb Hdt HI Ha E1 nv np L c i Hi. pose proof (setup_facts _ _ Hset) as F.
  destruct (ns_init_inv _ _ _ _ _ _ _ _ _ _ _ F Hb HI) as (B0 & HB0 & EO & _).
  destruct (createOperators_inv _ _ _ _ _ EO) as (d & g & l & BN & Ed & Eg & El & EB & EOps).
  assert (Hn : (1 <= p_bn P)%Z) by (unfold createBnHead in EB; destruct (Z.ltb_spec (p_bn P) 1); [discriminate|lia]).
  assert (EL : L = entry (op_log l)) by (unfold L; now rewrite EOps).
  destruct (bnhead_lemma nv L (p_dt P) c (p_bn P) Hdt Hn) as (BN' & EB' & Hinv). unfold nv, c in EB'. rewrite EL in EB'.
  rewrite EB in EB'. injection EB' as <-.
  destruct (advance_inv _ _ _ _ _ _ _ _ _ Ha) as (rhs1' & s1' & b' & X1 & X2 & XB1 & XdP & XU & _).
  rewrite E1 in X1. injection X1 as <- <-.
  assert (EG : o_BNG ops = mmul nv BN (o_G ops)) by (now rewrite EOps).
  assert (EA : forall x, mvec nv (o_A ops) x i = mvec nv (implicit_matrix mident (p_dt P) c L) x i).
  { intros x. apply mvec_ext; auto. intros j Hj. rewrite EL, EOps. cbn [o_A]. unfold mshift, mscale, implicit_matrix, mident, c. destruct (i =? j)%Z; lra. }
  rewrite XU, mvec_axpy. unfold residual. rewrite EA, <- XdP, EG.
  set (y := mvec np (o_G ops) (s_dP s2)).
  rewrite (mvec_ext nv (implicit_matrix mident (p_dt P) c L) (implicit_matrix mident (p_dt P) c L) (mvec (n_pressure m) (mmul nv BN (o_G ops)) (s_dP s2)) (mvec nv BN y) i)
    by (auto; intros; apply mvec_mmul).
  rewrite <- mvec_mmul. rewrite (mvec_ext nv (mmul nv _ _) (msub mident (mpow nv (mscale (c * p_dt P) L) (Z.to_nat (p_bn P)))) y y i) by (auto; intros; now apply Hinv).
  assert (EI : mvec nv (msub mident (mpow nv (mscale (c * p_dt P) L) (Z.to_nat (p_bn P)))) y i = y i - mvec nv (mpow nv (mscale (c * p_dt P) L) (Z.to_nat (p_bn P))) y i).
  { unfold mvec, zsum, msub. rewrite (sumR_ext _ (fun j => mident i j * y j - mpow nv (mscale (c * p_dt P) L) (Z.to_nat (p_bn P)) i j * y j)) by (intros; lra).
    rewrite sumR_minus. f_equal. rewrite (sumR_single _ _ i); [|apply zrange_NoDup|now apply zrange_In|].
    - unfold mident. rewrite Z.eqb_refl. lra.
    - intros j _ Hj. unfold mident. replace (i =? j)%Z with false by lia. lra. }
  rewrite EI. lra.
Qed.
