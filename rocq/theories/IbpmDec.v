(** The decoupled solver. *)
From Coq Require Import String ZifyBool Permutation.
From Verif Require Import Prelude ZSum RSum TypesModel GridModel GridSpec GridProof MeshProof IndexModel IndexSpec IndexProof
  BoundaryModel BoundarySpec BoundaryProof OperatorModel OperatorSpec OperatorProof BStateProof LapProof DivProof GradProof AdjProof SymProof
  MatModel BnModel BnSpec BnProof NSModel NSSpec NSProof NSTotal DriverModel DriverProof BodyModel BodySpec BodyProof
  DeltaModel DeltaSpec DeltaSum DeltaProps IbpmModel IbpmSpec IbpmProof IbpmStep.
Local Open Scope R_scope.

Lemma d_advance_inv m D P O X nf conv rhs_f vs ps fs x x2 : d_advance m D P O X nf conv rhs_f vs ps fs x = Ok x2 ->
  exists rhs0 s1 rhs2, let s := x_ns x in let s2 := x_ns x2 in
    let U1 := vs (s_U s) (vaxpy rhs0 1 (mvec nf (di_H X) (x_f x))) in
    let U2 := vaxpy U1 1 (mvec nf (di_BNH X) (x_df x2)) in
    rhs_velocity (n_pressure m) m D P O conv (begun P s) = Ok (rhs0, s1) /\
    x_df x2 = fs (x_df x) (rhs_f U1) /\
    assembleRHSPoisson m D P O U2 (s_bc s1) = Ok rhs2 /\
    bc_call m D (OpEqs (s_U s) (p_dt P)) (s_bc s) = Ok (s_bc s1) /\
    s_dP s2 = ps (s_dP s) rhs2 /\
    s_U s2 = vaxpy U2 (-1) (mvec (n_pressure m) (o_BNG O) (s_dP s2)) /\
    s_p s2 = vaxpy (s_p s) 1 (s_dP s2) /\ x_f x2 = vaxpy (x_f x) 1 (x_df x2) /\
    bc_call m D (OpVals (s_U s2)) (s_bc s1) = Ok (s_bc s2) /\
    s_t s2 = s_t s + p_dt P /\ s_ite s2 = (s_ite s + 1)%Z /\ s_conv s2 = s_conv s1 /\ s_diff s2 = s_diff s1.
Proof.
  unfold d_advance, d_assembleRHSVelocity, assembleRHSVelocity. intros H.
  apply bind_ok_inv in H. destruct H as ([rhs1 s1] & E1 & H). apply bind_ok_inv in E1. destruct E1 as ([rhs0 s1'] & E0 & E1). injection E1 as <- <-. cbv zeta in H.
  apply bind_ok_inv in H. destruct H as (rhs2 & E2 & H). apply bind_ok_inv in H. destruct H as (B2 & EB & H). injection H as <-.
  pose proof (rhsvel_inv _ _ _ _ _ _ _ _ _ E0) as (X1 & X2 & X3 & X4 & X5 & X6). cbn [s_t s_ite s_U s_p s_dP s_bc] in *.
  rewrite X4, X6 in *. exists rhs0, s1', rhs2. cbn [x_ns x_df x_f s_t s_ite s_U s_p s_dP s_bc s_conv s_diff]. rewrite X5 in *. repeat split; auto.
Qed.

Section Decoupled.
Variables (m : mesh) (D : dec) (P : nspar) (types : Z -> Z -> bctype) (values : Z -> Z -> R).
Hypotheses (Hset : mesh_setup m D) (Hb : bc_fits m types).
Let F : mfacts m D := setup_facts _ _ Hset.
Local Notation nv := (n_velocity m).
Local Notation np := (n_pressure m).

Lemma extra_inv B O name bodies X : createExtraOperators m D B P O name bodies = Ok X ->
  exists E H BN, ib_operators m D B name bodies = Ok (E, H) /\
    createBnHead nv (entry (op_log (o_L O))) (p_dt P) (p_dimp P * p_nu P) (p_bn P) = Ok BN /\
    X = mkDO E H (mmul nv BN H) (mmul nv E (mmul nv BN H)).
Proof.
  unfold createExtraOperators. intros H0. apply bind_ok_inv in H0. destruct H0 as ([E H] & EI & H0). apply bind_ok_inv in H0. destruct H0 as (BN & EB & H0).
  injection H0 as <-. exists E, H, BN. auto.
Qed.

(** The velocity interpolated at the bodies after a step with an exact solve
    for the forces. *)
Lemma slip_lemma O B name bodies X conv rhs_f ub vs ps fs x x2 rhs0 s1 :
  createExtraOperators m D B P O name bodies = Ok X ->
  (forall U i, (0 <= i < n_forces m bodies)%Z -> rhs_f U i = ub i - mvec nv (di_E X) U i) ->
  d_advance m D P O X (n_forces m bodies) conv rhs_f vs ps fs x = Ok x2 ->
  rhs_velocity np m D P O conv (begun P (x_ns x)) = Ok (rhs0, s1) ->
  (let b := rhs_f (vs (s_U (x_ns x)) (vaxpy rhs0 1 (mvec (n_forces m bodies) (di_H X) (x_f x)))) in
   solves (n_forces m bodies) (di_EBNH X) (fs (x_df x) b) b) ->
  forall row, (0 <= row < n_forces m bodies)%Z ->
    mvec nv (di_E X) (s_U (x_ns x2)) row + mvec nv (di_E X) (mvec np (o_BNG O) (s_dP (x_ns x2))) row = ub row.
Proof.
  intros HX Hrf Ha E1 Hsol row Hrow. destruct (extra_inv _ _ _ _ _ HX) as (E & H & BN & EI & EB & ->). cbn [di_E di_H di_BNH di_EBNH] in *.
  destruct (d_advance_inv _ _ _ _ _ _ _ _ _ _ _ _ _ Ha) as (rhs0' & s1' & rhs2 & X1 & Xdf & _ & _ & _ & XU & _). cbv zeta in *. cbn [di_E di_H di_BNH di_EBNH] in *.
  rewrite E1 in X1. injection X1 as <- <-. rewrite XU, !mvec_axpy. rewrite <- mvec_mmul, Xdf, Hsol by auto. rewrite Hrf by auto. lra.
Qed.

Lemma decoupled_divergence O B0 U0 h1 X nf conv rhs_f vs ps fs x x2 rhs0 s1 b u : periodic_min m 2 ->
  createOperators m D B0 P = Ok O -> boundary_after m D types values [OpICs U0] B0 ->
  boundary_after m D types values ([OpICs U0] ++ h1) (s_bc (x_ns x)) ->
  d_advance m D P O X nf conv rhs_f vs ps fs x = Ok x2 ->
  rhs_velocity np m D P O conv (begun P (x_ns x)) = Ok (rhs0, s1) ->
  let U1 := vs (s_U (x_ns x)) (vaxpy rhs0 1 (mvec nf (di_H X) (x_f x))) in
  let U2 := vaxpy U1 1 (mvec nf (di_BNH X) (x_df x2)) in
  assembleRHSPoisson m D P O U2 (s_bc s1) = Ok b ->
  solves np (o_DBNG O) (ps (s_dP (x_ns x)) b) b ->
  (p_refp P = true -> no_normal_neumann m types /\
     exists c, correction_mult m (nranks D) (o_D O) (s_bc s1) = Ok c /\
       total np (vaxpy c 1 (mvec nv (entry (op_log (o_D O))) U2)) = 0) ->
  extends m D (s_bc (x_ns x2)) (s_U (x_ns x2)) u ->
  forall p, interior (m_n m 3) p -> net_flux m false u p = 0.
Proof.
  intros Hmin EO HB0 Hh Ha E1 U1 U2 E2 Hsol Hpin Hext p Hp.
  destruct (createOperators_inv _ _ _ _ _ EO) as (d & g & l & BN & Ed & Eg & El & EB & ->).
  destruct (d_advance_inv _ _ _ _ _ _ _ _ _ _ _ _ _ Ha) as (rhs0' & s1' & b' & X1 & Xdf & X2 & XB1 & XdP & XU & _ & _ & XB2 & _). cbv zeta in *.
  rewrite E1 in X1. injection X1 as <- <-. fold U1 in Xdf, X2, XU. fold U2 in X2, XU. rewrite E2 in X2. injection X2 as <-.
  cbn [o_D o_G o_L o_A o_BNG o_DBNG] in *.
  pose proof (bc_call_inv m D types values _ _ _ _ F Hb Hh XB1) as HB1. pose proof (bc_call_inv m D types values _ _ _ _ F Hb HB1 XB2) as HB2.
  rewrite <- app_assoc in HB1. rewrite <- !app_assoc in HB2.
  assert (Hics : has_ics [OpICs U0]) by (exists U0; now left).
  set (s := x_ns x) in *. set (s2 := x_ns x2) in *.
  destruct (divergence_lemma m D types values false [OpICs U0] (h1 ++ [OpEqs (s_U s) (p_dt P)]) (s_U s2) B0 (s_bc s1) (s_bc s2) u F Hb Hics Hmin HB0 HB1) as (op & c & Eop & Ec & Hdiv); auto.
  { rewrite <- !app_assoc. exact HB2. }
  rewrite Ed in Eop. injection Eop as <-.
  rewrite XdP in *. set (dP := ps (s_dP s) b) in *. set (Dm := entry (op_log d)) in *.
  set (A := mmul nv Dm (mmul nv BN (entry g))) in *.
  set (rhs := vaxpy c 1 (mvec nv Dm U2)).
  assert (Hfull : solves np A dP rhs).
  { unfold assembleRHSPoisson in E2. cbn [o_D] in E2. rewrite Ec in E2. cbn [bind] in E2. injection E2 as <-. fold Dm rhs in Hsol.
    destruct (p_refp P); [|exact Hsol]. destruct (Hpin eq_refl) as (Hn & c' & Ec' & Ht). rewrite Ec in Ec'. injection Ec' as <-. fold rhs in Ht.
    apply pin_equivalent; auto.
    - pose proof (sizes_pos m D 3 0 F (or_intror eq_refl) ltac:(lia)). pose proof (sizes_pos m D 3 1 F (or_intror eq_refl) ltac:(lia)).
      pose proof (sizes_pos m D 3 2 F (or_intror eq_refl) ltac:(lia)). unfold n_pressure, npoints. nia.
    - intros j Hj. unfold A, mmul at 1, zsum. rewrite sumR_swap. apply sumR_zero. intros q Hq. apply zrange_In in Hq. rewrite sumR_scal_r.
      pose proof (div_column_sum m D types values [OpICs U0] q F Hb Hics Hmin Hn Hq) as Z0.
      rewrite (createDivergence_ok m D types values false [OpICs U0] B0 F Hb HB0) in Ed. injection Ed as <-. unfold zsum in Z0. unfold Dm. rewrite Z0. lra. }
  destruct (pidx_spec m D p F Hp) as [_ Np]. specialize (Hdiv _ _ Np). rewrite <- Hdiv.
  change (mvec nv Dm (s_U s2) (idx m D 3 p) + c (idx m D 3 p) = 0).
  rewrite XU. rewrite mvec_axpy. rewrite <- mvec_mmul. fold A.
  assert (Hi : (0 <= idx m D 3 p < np)%Z) by (apply pidx_range; auto).
  rewrite (Hfull _ Hi). unfold rhs, vaxpy. lra.
Qed.

(** The momentum equation of a step. *)
Lemma decoupled_momentum_lemma O B0 B name bodies X conv rhs_f vs ps fs x x2 : p_dt P <> 0 ->
  createOperators m D B0 P = Ok O -> createExtraOperators m D B P O name bodies = Ok X ->
  d_advance m D P O X (n_forces m bodies) conv rhs_f vs ps fs x = Ok x2 ->
  let s := x_ns x in let s2 := x_ns x2 in let nf := n_forces m bodies in let L := entry (op_log (o_L O)) in let k := p_dimp P * p_nu P in
  exists rhs1 B1 c, bc_call m D (OpEqs (s_U s) (p_dt P)) (s_bc s) = Ok B1 /\ correction_mult m (nranks D) (o_L O) B1 = Ok c /\
    (forall i, rhs1 i = s_U s i / p_dt P - mvec np (o_G O) (s_p s) i + mvec nf (di_H X) (x_f x) i
                        + weighted (p_cexp P) (s_conv s2) i + weighted (p_dexp P) (s_diff s2) i + k * c i) /\
    s_p s2 = vaxpy (s_p s) 1 (s_dP s2) /\ x_f x2 = vaxpy (x_f x) 1 (x_df x2) /\
    (solves nv (implicit_matrix mident (p_dt P) k L) (vs (s_U s) rhs1) rhs1 ->
     forall i, (0 <= i < nv)%Z ->
       let imp := fun j => mvec np (o_G O) (s_dP s2) j - mvec nf (di_H X) (x_df x2) j in
       mvec nv (implicit_matrix mident (p_dt P) k L) (s_U s2) i + imp i
       = rhs1 i + mvec nv (mpow nv (mscale (k * p_dt P) L) (Z.to_nat (p_bn P))) imp i).
Proof.
  intros Hdt EO HX Ha. cbv zeta. set (nf := n_forces m bodies) in *.
  destruct (createOperators_inv _ _ _ _ _ EO) as (d & g & l & BN & Ed & Eg & El & EB & ->).
  destruct (extra_inv _ _ _ _ _ HX) as (E & H & BN' & EI & EB' & ->). cbn [o_D o_G o_L o_A o_BNG o_DBNG di_E di_H di_BNH di_EBNH] in *.
  rewrite EB in EB'. injection EB' as <-.
  destruct (d_advance_inv _ _ _ _ _ _ _ _ _ _ _ _ _ Ha) as (rhs0 & s1 & b & X1 & Xdf & X2 & XB1 & XdP & XU & Xp & Xf & XB2 & _ & _ & Xc & Xd).
  cbv zeta in *. cbn [o_D o_G o_L o_A o_BNG o_DBNG di_E di_H di_BNH di_EBNH] in *.
  destruct (rhs_value _ _ _ _ _ _ _ _ _ X1) as (c & Ec & Hr). cbn [o_L o_G begun s_U s_p] in *.
  exists (vaxpy rhs0 1 (mvec nf H (x_f x))), (s_bc s1), c. split; [exact XB1|]. split; [exact Ec|]. split.
  { intros i. unfold vaxpy. rewrite Hr, Xc, Xd. lra. }
  split; [exact Xp|]. split; [exact Xf|]. intros Hsol i Hi.
  set (imp := fun j => mvec np (entry g) (s_dP (x_ns x2)) j - mvec nf H (x_df x2) j).
  rewrite <- (momentum_core nv _ _ _ _ BN imp _ _ Hdt EB Hsol i Hi). f_equal. apply mvec_ext; [reflexivity|]. intros j _.
  rewrite XU. unfold vaxpy. rewrite !mvec_mmul.
  assert (EI2 : mvec nv BN imp j = mvec nv BN (mvec np (entry g) (s_dP (x_ns x2))) j - mvec nv BN (mvec nf H (x_df x2)) j).
  { rewrite (mvec_ext nv BN BN imp (vaxpy (mvec np (entry g) (s_dP (x_ns x2))) (-1) (mvec nf H (x_df x2))) j); [rewrite mvec_axpy; lra|reflexivity|].
    intros q _. unfold imp, vaxpy. lra. }
  rewrite EI2. lra.
Qed.

Lemma d_advance_total O B0 U0 h1 X nf conv rhs_f vs ps fs x :
  createOperators m D B0 P = Ok O -> boundary_after m D types values [OpICs U0] B0 ->
  boundary_after m D types values ([OpICs U0] ++ h1) (s_bc (x_ns x)) ->
  (lenZ (s_conv (x_ns x)) <= lenZ (p_cexp P))%Z -> (lenZ (s_diff (x_ns x)) <= lenZ (p_dexp P))%Z ->
  is_ok (conv (s_bc (x_ns x)) (s_U (x_ns x))) -> is_ok (d_advance m D P O X nf conv rhs_f vs ps fs x).
Proof.
  intros EO HB0 Hh Lc Ld Hc. unfold d_advance, d_assembleRHSVelocity, assembleRHSVelocity.
  fold (begun P (x_ns x)).
  destruct (rhsvel_total m D P types values F Hb np conv O U0 h1 (begun P (x_ns x))) as (rhs & s1 & E); auto.
  { intros h B HB. exact (proj1 (correction_lap m D P types values F Hb _ _ _ _ _ EO HB0 HB)). }
  rewrite E. cbn [bind].
  destruct (rhsvel_inv _ _ _ _ _ _ _ _ _ E) as (XB & _).
  pose proof (bc_call_inv m D types values _ _ _ _ F Hb Hh XB) as HB1. rewrite <- app_assoc in HB1.
  unfold assembleRHSPoisson. destruct (proj2 (correction_lap m D P types values F Hb _ _ _ _ _ EO HB0 HB1)) as [c ->]. cbn [bind].
  match goal with |- context [bc_call m D ?o (s_bc s1)] => destruct (bc_call_after m D types values _ _ o F Hb HB1) as (B2 & -> & _) end.
  cbn [bind]. eexists. reflexivity.
Qed.

Lemma d_advance_boundary O U0 h1 X nf conv rhs_f vs ps fs x x2 :
  boundary_after m D types values ([OpICs U0] ++ h1) (s_bc (x_ns x)) ->
  d_advance m D P O X nf conv rhs_f vs ps fs x = Ok x2 ->
  exists h2, boundary_after m D types values ([OpICs U0] ++ h2) (s_bc (x_ns x2)).
Proof.
  intros Hh Ha. destruct (d_advance_inv _ _ _ _ _ _ _ _ _ _ _ _ _ Ha) as (rhs0 & s1 & b & _ & _ & _ & B1 & _ & _ & _ & _ & B2 & _). cbv zeta in *.
  exists (h1 ++ [OpEqs (s_U (x_ns x)) (p_dt P)] ++ [OpVals (s_U (x_ns x2))]).
  apply (bc_call_inv m D types values _ _ _ _ F Hb Hh) in B1. apply (bc_call_inv m D types values _ _ _ _ F Hb B1) in B2.
  rewrite <- !app_assoc in B2. exact B2.
Qed.
Lemma d_advance_lens O X nf conv rhs_f vs ps fs x x2 : d_advance m D P O X nf conv rhs_f vs ps fs x = Ok x2 ->
  lenZ (s_conv (x_ns x2)) = lenZ (s_conv (x_ns x)) /\ lenZ (s_diff (x_ns x2)) = lenZ (s_diff (x_ns x)).
Proof.
  intros Ha. destruct (d_advance_inv _ _ _ _ _ _ _ _ _ _ _ _ _ Ha) as (rhs0 & s1 & b & X1 & _ & _ & _ & _ & _ & _ & _ & _ & _ & _ & Xc & Xd). cbv zeta in *.
  destruct (rhsvel_slots _ _ _ _ _ _ _ _ _ X1) as [S1 S2]. apply slots_update in S1, S2. cbn [begun s_conv s_diff] in S1, S2. rewrite Xc, Xd. destruct S1 as [S1 _], S2 as [S2 _]. auto.
Qed.

Lemma d_init_inv name bodies t0 n0 U0 p0 O X x0 : d_init m D P types values name bodies t0 n0 U0 p0 = Ok (O, X, x0) ->
  exists B, boundary_after m D types values [OpICs U0] B /\ createOperators m D B P = Ok O /\ createExtraOperators m D B P O name bodies = Ok X /\
    x0 = mkDS (mkNS t0 n0 U0 p0 (fun _ => 0) (map (fun _ => (fun _ => 0) : vec) (p_cexp P)) (map (fun _ => (fun _ => 0) : vec) (p_dexp P)) B) (fun _ => 0) (fun _ => 0).
Proof.
  intros H. unfold d_init in H. apply bind_ok_inv in H. destruct H as ([O' s0] & EI & H). apply bind_ok_inv in H. destruct H as (X' & EX & H). injection H as <- <- <-.
  destruct (ns_init_inv _ _ _ _ _ _ _ _ _ _ _ F Hb EI) as (B & HB & EO & ->). exists B. cbn [s_bc] in EX. auto.
Qed.

Lemma d_steps_boundary name bodies t0 n0 U0 p0 O X x0 nf conv rhs_f vs ps fs k x : d_init m D P types values name bodies t0 n0 U0 p0 = Ok (O, X, x0) ->
  run_steps (d_advance m D P O X nf conv rhs_f vs ps fs) k x0 = Ok x ->
  (exists h1, boundary_after m D types values ([OpICs U0] ++ h1) (s_bc (x_ns x))) /\
  lenZ (s_conv (x_ns x)) = lenZ (p_cexp P) /\ lenZ (s_diff (x_ns x)) = lenZ (p_dexp P).
Proof.
  intros HI. destruct (d_init_inv _ _ _ _ _ _ _ _ _ HI) as (B & HB & _ & _ & ->). revert x. induction k as [|k IH]; intros x H.
  - injection H as <-. split; [exists []; exact HB|]. cbn [x_ns s_conv s_diff]. now rewrite !lenZ_map.
  - cbn [run_steps] in H. apply bind_ok_inv in H. destruct H as (x' & Es & Ea). destruct (IH x' Es) as ((h1 & Hh) & Lc & Ld).
    split; [exact (d_advance_boundary _ _ _ _ _ _ _ _ _ _ _ _ Hh Ea)|]. destruct (d_advance_lens _ _ _ _ _ _ _ _ _ _ Ea) as [-> ->]. auto.
Qed.

Lemma extra_total K w O B hist name bodies : bodies_ok m D bodies -> getKernel name = Ok (K, w) -> (1 <= p_bn P)%Z ->
  boundary_after m D types values hist B ->
  (forall b i X, located bodies b i X -> inside_domain m X /\ in_reach m types w X) ->
  (forall b bc r, nthZ bodies b = Some bc -> (0 <= r < nranks D)%Z -> (0 < b_l (fst bc) r)%Z) ->
  is_ok (createExtraOperators m D B P O name bodies).
Proof.
  intros Hbo HK Hn HB Hin Hrk. unfold createExtraOperators.
  destruct (proj2 (delta_defined m D B name K w bodies types values hist Hset Hbo HK Hb HB) (conj Hin Hrk)) as (log & El).
  unfold ib_operators. destruct (AlgebraProps.diagonal_operators m D Hset) as (Rm & Ri & Mm & Mq & Id & ER & _ & EM & _).
  rewrite ER, EM, HK. cbn [bind fst snd]. rewrite El. cbn [bind].
  unfold createBnHead. replace (p_bn P <? 1)%Z with false by lia. destruct (p_bn P =? 1)%Z; cbn [bind]; eexists; reflexivity.
Qed.

Lemma decoupled_total K w name bodies conv rhs_f vs ps fs t0 n0 U0 p0 k : bodies_ok m D bodies -> getKernel name = Ok (K, w) -> (1 <= p_bn P)%Z ->
  (forall b i X, located bodies b i X -> inside_domain m X /\ in_reach m types w X) ->
  (forall b bc r, nthZ bodies b = Some bc -> (0 <= r < nranks D)%Z -> (0 < b_l (fst bc) r)%Z) ->
  (forall hist B x, boundary_after m D types values ([OpICs U0] ++ hist) B -> is_ok (conv B x)) ->
  exists O X x0 x, d_init m D P types values name bodies t0 n0 U0 p0 = Ok (O, X, x0) /\
    run_steps (d_advance m D P O X (n_forces m bodies) conv (rhs_f X) vs ps fs) k x0 = Ok x.
Proof.
  intros Hbo HK Hn Hin Hrk Hc.
  destruct (init_total m D P types values t0 n0 U0 p0 F Hb Hn) as (O & s0 & HI).
  destruct (ns_init_inv _ _ _ _ _ _ _ _ _ _ _ F Hb HI) as (B0 & HB0 & EO & E0).
  destruct (extra_total K w O B0 [OpICs U0] name bodies Hbo HK Hn HB0 Hin Hrk) as [X EX].
  assert (I : d_init m D P types values name bodies t0 n0 U0 p0 = Ok (O, X, mkDS s0 (fun _ => 0) (fun _ => 0))).
  { unfold d_init. rewrite HI. cbn [bind]. rewrite E0 at 1. cbn [s_bc]. rewrite EX. reflexivity. }
  exists O, X, (mkDS s0 (fun _ => 0) (fun _ => 0)).
  assert (S : exists x, run_steps (d_advance m D P O X (n_forces m bodies) conv (rhs_f X) vs ps fs) k (mkDS s0 (fun _ => 0) (fun _ => 0)) = Ok x).
  { induction k as [|k [x Hx]]; [eexists; reflexivity|]. cbn [run_steps]. rewrite Hx. cbn [bind].
    destruct (d_steps_boundary _ _ _ _ _ _ _ _ _ _ _ _ _ _ _ _ _ I Hx) as ((h1 & Hh) & Lc & Ld).
    apply (d_advance_total O B0 U0 h1); auto; try lia. exact (Hc h1 _ _ Hh). }
  destruct S as [x Hx]. exists x. auto.
Qed.
End Decoupled.
