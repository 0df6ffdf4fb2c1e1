(** C21, C22, C37, C55, C56: the projection step of the Navier-Stokes solver. *)
From Coq Require Import ZifyBool.
From Verif Require Import Prelude ZSum RSum TypesModel GridModel GridSpec GridProof MeshProof IndexModel IndexSpec IndexProof
  BoundaryModel BoundarySpec BoundaryProof OperatorModel OperatorSpec OperatorProof BStateProof LapProof DivProof GradProof AdjProof SymProof
  MatModel BnModel BnSpec BnProof NSModel NSSpec NSProof NSPin NSTotal ExampleSetup.
Local Open Scope R_scope.

(** C21. s is the state after any number k of steps from any initial fields, s2
    the state after one more step. The intermediate velocity is whatever the
    momentum solver returned ([vs], arbitrary). If the Poisson solver returned
    an exact solution for the right-hand side b of this step, then the net flux
    of the new velocity, extended out of the domain by periodic images and by
    the ghost values of this step, vanishes in every cell. With a pinned
    pressure the unpinned right-hand side must be compatible (zero sum). *)
Theorem projected_velocity_divergence_free : forall m D P types values t0 n0 U0 p0 ops s0 conv vs ps k s s2 rhs1 s1 b u,
  mesh_setup m D -> bc_fits m types -> periodic_min m 2 ->
  ns_init m D P types values t0 n0 U0 p0 = Ok (ops, s0) -> ns_steps m D P ops conv vs ps k s0 = Ok s ->
  advance m D P ops conv vs ps s = Ok s2 ->
  assembleRHSVelocity m D P ops conv (mkNS (s_t s + p_dt P) (s_ite s + 1) (s_U s) (s_p s) (s_dP s) (s_conv s) (s_diff s) (s_bc s)) = Ok (rhs1, s1) ->
  assembleRHSPoisson m D P ops (vs (s_U s) rhs1) (s_bc s1) = Ok b ->
  solves (n_pressure m) (o_DBNG ops) (ps (s_dP s) b) b ->
  (p_refp P = true -> no_normal_neumann m types /\
     exists c, correction_mult m (nranks D) (o_D ops) (s_bc s1) = Ok c /\
       total (n_pressure m) (vaxpy c 1 (mvec (n_velocity m) (entry (op_log (o_D ops))) (vs (s_U s) rhs1))) = 0) ->
  extends m D (s_bc s2) (s_U s2) u ->
  forall p, interior (m_n m 3) p -> net_flux m false u p = 0.
Proof. exact step_divergence. Qed.
Print Assumptions projected_velocity_divergence_free.

(** C22. A symmetric matrix with zero row sums, a right-hand side with zero sum:
    the solution of the pinned system solves every original equation, row 0
    included. *)
Theorem pinned_solution_solves_original : forall n A b x, (1 <= n)%Z ->
  (forall i j, (0 <= i < n)%Z -> (0 <= j < n)%Z -> A i j = A j i) ->
  (forall i, (0 <= i < n)%Z -> zsum (A i) 0 n = 0) -> total n b = 0 ->
  solves n (pin A) x (fun i => if (i =? 0)%Z then 0 else b i) -> solves n A x b.
Proof.
  intros n A b x Hn Hsym Hrow Hb Hs. apply pin_equivalent; auto. intros j Hj. rewrite <- (Hrow j Hj). apply zsum_ext. intros i Hi. auto.
Qed.
Print Assumptions pinned_solution_solves_original.

(** C22, converse: a solution of the original system, shifted by its entry in
    cell 0, solves the pinned system; no solution is lost by pinning. *)
Theorem original_solution_solves_pinned : forall n A b x, (1 <= n)%Z ->
  (forall i, (0 <= i < n)%Z -> zsum (A i) 0 n = 0) -> solves n A x b ->
  solves n (pin A) (fun i => x i - x 0%Z) (fun i => if (i =? 0)%Z then 0 else b i).
Proof.
  intros n A b x Hn Hrow Hs i Hi. unfold mvec. destruct (Z.eqb_spec i 0) as [->|Hne].
  - unfold zsum. apply sumR_zero. intros l Hl. unfold pin. cbn. destruct l; try (cbn; lra).
  - rewrite <- (Hs i Hi). unfold mvec. rewrite (zsum_ext _ (fun l => A i l * x l - A i l * x 0%Z)).
    + unfold zsum. rewrite sumR_minus, sumR_scal_r. fold (zsum (A i) 0 n). rewrite Hrow by auto. lra.
    + intros l Hl. unfold pin. replace (i =? 0)%Z with false by lia. cbn [orb]. destruct (Z.eqb_spec l 0) as [->|]; [|lra].
      replace (i =? 0)%Z with false by lia. lra.
Qed.
Print Assumptions original_solution_solves_pinned.

(** C22 for the Poisson matrix the solver assembles (which is symmetric only
    for order 1): the hypothesis on the matrix always holds when no component
    has a Neumann condition on a boundary normal to it. *)
Theorem pinned_poisson_solves_original : forall m D P types values t0 n0 U0 p0 ops s0 x b,
  mesh_setup m D -> bc_fits m types -> periodic_min m 2 -> no_normal_neumann m types -> p_refp P = true ->
  ns_init m D P types values t0 n0 U0 p0 = Ok (ops, s0) ->
  total (n_pressure m) b = 0 ->
  solves (n_pressure m) (o_DBNG ops) x (fun i => if (i =? 0)%Z then 0 else b i) ->
  solves (n_pressure m) (mmul (n_velocity m) (entry (op_log (o_D ops))) (o_BNG ops)) x b.
Proof.
  intros m D P types values t0 n0 U0 p0 ops s0 x b Hset Hb Hmin Hn Hp HI Hz Hs. pose proof (setup_facts _ _ Hset) as F.
  destruct (ns_init_inv _ _ _ _ _ _ _ _ _ _ _ F Hb HI) as (B0 & HB0 & EO & _).
  destruct (createOperators_inv _ _ _ _ _ EO) as (d & g & l & BN & Ed & Eg & El & EB & ->). cbn [o_D o_BNG o_DBNG] in *. rewrite Hp in Hs.
  apply pin_equivalent; auto.
  - pose proof (sizes_pos m D 3 0 F (or_intror eq_refl) ltac:(lia)). pose proof (sizes_pos m D 3 1 F (or_intror eq_refl) ltac:(lia)).
    pose proof (sizes_pos m D 3 2 F (or_intror eq_refl) ltac:(lia)). unfold n_pressure, npoints. nia.
  - intros j Hj. unfold mmul at 1, zsum. rewrite sumR_swap. apply sumR_zero. intros q Hq. apply zrange_In in Hq. rewrite sumR_scal_r.
    assert (Hics : has_ics [OpICs U0]) by (exists U0; now left).
    pose proof (div_column_sum m D types values [OpICs U0] q F Hb Hics Hmin Hn Hq) as Z0.
    rewrite (createDivergence_ok m D types values false [OpICs U0] B0 F Hb HB0) in Ed. injection Ed as <-. unfold zsum in Z0. rewrite Z0. lra.
Qed.
Print Assumptions pinned_poisson_solves_original.

(** C22, C18. The matrix handed to the Poisson solver for order 1, pinned or
    not, is symmetric, as the conjugate-gradient solver needs. *)
Theorem poisson_matrix_symmetric : forall m D P types values t0 n0 U0 p0 ops s0,
  mesh_setup m D -> bc_fits m types -> periodic_min m 2 -> no_normal_neumann m types -> p_bn P = 1%Z ->
  ns_init m D P types values t0 n0 U0 p0 = Ok (ops, s0) ->
  forall i j, (0 <= i < n_pressure m)%Z -> (0 <= j < n_pressure m)%Z -> o_DBNG ops i j = o_DBNG ops j i.
Proof.
  intros m D P types values t0 n0 U0 p0 ops s0 Hset Hb Hmin Hn Hbn HI i j Hi Hj. pose proof (setup_facts _ _ Hset) as F.
  destruct (order_one m D P types values t0 n0 U0 p0 ops s0 Hset Hb Hmin Hn Hbn HI) as (w & g & Hw & HA & HS). rewrite !HS.
  assert (X : unpinned m ops i j = unpinned m ops j i) by (rewrite !HA by auto; f_equal; apply zsum_ext; intros; ring).
  unfold pin. destruct (p_refp P); [|exact X]. rewrite (orb_comm (j =? 0)%Z), (Z.eqb_sym j i). destruct ((i =? 0) || (j =? 0))%Z; auto.
Qed.
Print Assumptions poisson_matrix_symmetric.

(** C22. For order 1 the pinned system has at most one solution. *)
Theorem pinned_poisson_unique : forall m D P types values t0 n0 U0 p0 ops s0 x y b,
  mesh_setup m D -> bc_fits m types -> periodic_min m 2 -> no_normal_neumann m types -> p_bn P = 1%Z -> p_dt P <> 0 -> p_refp P = true ->
  ns_init m D P types values t0 n0 U0 p0 = Ok (ops, s0) ->
  solves (n_pressure m) (o_DBNG ops) x b -> solves (n_pressure m) (o_DBNG ops) y b ->
  forall i, (0 <= i < n_pressure m)%Z -> x i = y i.
Proof.
  intros m D P types values t0 n0 U0 p0 ops s0 x y b Hset Hb Hmin Hn Hbn Hdt Hp HI Hx Hy i Hi.
  assert (Hz : solves (n_pressure m) (o_DBNG ops) (fun i => x i - y i) (fun i => if (i =? 0)%Z then 0 else (fun _ => 0) i)).
  { intros r Hr. specialize (Hx r Hr). specialize (Hy r Hr). unfold mvec in *. rewrite (zsum_ext _ (fun l => o_DBNG ops r l * x l - o_DBNG ops r l * y l)) by (intros; ring).
    unfold zsum in *. rewrite sumR_minus, Hx, Hy. destruct (r =? 0)%Z; ring. }
  assert (Z0 : x 0%Z - y 0%Z = 0).
  { specialize (Hz 0%Z ltac:(lia)). cbn [Z.eqb] in Hz. rewrite <- Hz. pose proof (order_one m D P types values t0 n0 U0 p0 ops s0 Hset Hb Hmin Hn Hbn HI) as (w & g & _ & _ & HS).
    unfold mvec. rewrite (zsum_ext _ (fun l => if (l =? 0)%Z then x 0%Z - y 0%Z else 0)).
    - symmetry. apply (zsum_single 0 (fun _ => x 0%Z - y 0%Z) (n_pressure m)). lia.
    - intros l Hl. rewrite HS, Hp. unfold pin. cbn [Z.eqb orb]. destruct (Z.eqb_spec l 0) as [->|]; [cbv beta iota; cbn [Z.eqb]; ring|]. destruct l; [congruence|ring|ring]. }
  assert (HO := pinned_poisson_solves_original m D P types values t0 n0 U0 p0 ops s0 (fun i => x i - y i) (fun _ => 0) Hset Hb Hmin Hn Hp HI).
  specialize (HO ltac:(unfold total, zsum; apply sumR_zero; auto) Hz).
  pose proof (order_one_kernel m D P types values t0 n0 U0 p0 ops s0 Hset Hb Hmin Hn Hbn Hdt HI (fun i => x i - y i)) as K. cbv beta in K.
  enough (K0 : zsum (fun i => (x i - y i) * mvec (n_pressure m) (unpinned m ops) (fun i => x i - y i) i) 0 (n_pressure m) = 0) by (specialize (K K0 i 0%Z Hi ltac:(lia)); lra).
  unfold zsum. apply sumR_zero. intros r Hr. apply zrange_In in Hr. specialize (HO r Hr). cbv beta in HO. fold (unpinned m ops) in HO. rewrite HO. ring.
Qed.
Print Assumptions pinned_poisson_unique.

(** C22, violated expectation: pinning makes the matrix indefinite. The
    diagonal entry written for cell 0 is +1 while the quadratic form is negative
    on every pressure field that is 0 in cell 0 and not 0 everywhere. *)
Theorem pinned_poisson_definite_refuted : forall m D P types values t0 n0 U0 p0 ops s0,
  mesh_setup m D -> bc_fits m types -> periodic_min m 2 -> no_normal_neumann m types -> p_bn P = 1%Z -> 0 < p_dt P -> p_refp P = true ->
  ns_init m D P types values t0 n0 U0 p0 = Ok (ops, s0) ->
  let form y := zsum (fun i => y i * mvec (n_pressure m) (o_DBNG ops) y i) 0 (n_pressure m) in
  form (fun i => if (i =? 0)%Z then 1 else 0) = 1 /\
  forall y, y 0%Z = 0 -> (exists i, (0 <= i < n_pressure m)%Z /\ y i <> 0) -> form y < 0.
Proof.
  intros m D P types values t0 n0 U0 p0 ops s0 Hset Hb Hmin Hn Hbn Hdt Hp HI form.
  pose proof (order_one m D P types values t0 n0 U0 p0 ops s0 Hset Hb Hmin Hn Hbn HI) as (w & g & Hw & HA & HS).
  assert (N0 : (0 < n_pressure m)%Z).
  { pose proof (setup_facts _ _ Hset) as F. pose proof (sizes_pos m D 3 0 F (or_intror eq_refl) ltac:(lia)). pose proof (sizes_pos m D 3 1 F (or_intror eq_refl) ltac:(lia)).
    pose proof (sizes_pos m D 3 2 F (or_intror eq_refl) ltac:(lia)). unfold n_pressure, npoints. nia. }
  split.
  - unfold form. rewrite (zsum_ext _ (fun l => if (l =? 0)%Z then 1 else 0)).
    + exact (zsum_single 0 (fun _ => 1) (n_pressure m) ltac:(lia)).
    + intros i Hi. destruct (Z.eqb_spec i 0) as [->|]; [|ring]. unfold mvec. rewrite (zsum_ext _ (fun l => if (l =? 0)%Z then 1 else 0)).
      * rewrite (zsum_single 0 (fun _ => 1) (n_pressure m) ltac:(lia)). ring.
      * intros l Hl. rewrite HS, Hp. unfold pin. cbn [Z.eqb orb]. destruct (Z.eqb_spec l 0) as [->|]; cbn; ring.
  - intros y Y0 (i & Hi & Hne).
    assert (E : form y = zsum (fun i => y i * mvec (n_pressure m) (unpinned m ops) y i) 0 (n_pressure m)).
    { unfold form. apply zsum_ext. intros r Hr. destruct (Z.eq_dec r 0) as [->|Hr0]; [rewrite Y0; ring|]. f_equal. unfold mvec. apply zsum_ext. intros l Hl. rewrite HS, Hp. unfold pin.
      replace (r =? 0)%Z with false by lia. cbn [orb]. destruct (Z.eqb_spec l 0) as [->|]; [rewrite Y0; ring|reflexivity]. }
    rewrite E. destruct (Rtotal_order (zsum (fun i => y i * mvec (n_pressure m) (unpinned m ops) y i) 0 (n_pressure m)) 0) as [H|[H|H]]; [exact H| |].
    + exfalso. apply Hne. rewrite <- Y0. apply (order_one_kernel m D P types values t0 n0 U0 p0 ops s0 Hset Hb Hmin Hn Hbn ltac:(lra) HI y H); lia.
    + exfalso. rewrite (order_one_form m ops w g (p_dt P) y HA) in H.
      assert (0 <= zsum (fun c => w c * (mvec (n_pressure m) g y c * mvec (n_pressure m) g y c)) 0 (n_velocity m)); [|nra].
      apply sumR_nonneg. intros c Hc. apply zrange_In in Hc. specialize (Hw c Hc). apply Rmult_le_pos; [lra|apply Rle_0_sqr].
Qed.
Print Assumptions pinned_poisson_definite_refuted.

(** C37. After k steps, slot i of the stored convection (diffusion) terms is the
    term of the state after k - 1 - i steps, for every i < k; the older slots are
    still zero. *)
Theorem explicit_history : forall m D P types values t0 n0 U0 p0 ops s0 conv vs ps k s,
  mesh_setup m D -> bc_fits m types ->
  ns_init m D P types values t0 n0 U0 p0 = Ok (ops, s0) -> ns_steps m D P ops conv vs ps k s0 = Ok s ->
  (lenZ (s_conv s) = lenZ (p_cexp P) /\ forall i, (0 <= i < lenZ (p_cexp P))%Z ->
     if (i <? Z.of_nat k)%Z
     then exists s' v, ns_steps m D P ops conv vs ps (Z.to_nat (Z.of_nat k - 1 - i)) s0 = Ok s' /\
                       convection_term conv s' = Ok v /\ nthZ (s_conv s) i = Some v
     else nthZ (s_conv s) i = Some (fun _ => 0)) /\
  (lenZ (s_diff s) = lenZ (p_dexp P) /\ forall i, (0 <= i < lenZ (p_dexp P))%Z ->
     if (i <? Z.of_nat k)%Z
     then exists s' v, ns_steps m D P ops conv vs ps (Z.to_nat (Z.of_nat k - 1 - i)) s0 = Ok s' /\
                       diffusion_term m D P ops s' = Ok v /\ nthZ (s_diff s) i = Some v
     else nthZ (s_diff s) i = Some (fun _ => 0)).
Proof.
  intros m D P types values t0 n0 U0 p0 ops s0 conv vs ps k s Hset Hb HI Hk. pose proof (setup_facts _ _ Hset) as F.
  destruct (ns_init_inv _ _ _ _ _ _ _ _ _ _ _ F Hb HI) as (B0 & HB0 & EO & E0).
  pose proof (history_conv m D P ops conv vs ps s0 k s Hk) as [Lc Ic]. pose proof (history_diff m D P ops conv vs ps s0 k s Hk) as [Ld Id].
  assert (Ec : s_conv s0 = map (fun _ => (fun _ => 0) : vec) (p_cexp P)) by (now rewrite E0).
  assert (Edd : s_diff s0 = map (fun _ => (fun _ => 0) : vec) (p_dexp P)) by (now rewrite E0).
  rewrite Ec, lenZ_map in Lc, Ic. rewrite Edd, lenZ_map in Ld, Id.
  split; (split; [assumption|]); intros i Hi; [specialize (Ic i Hi)|specialize (Id i Hi)]; destruct (Z.ltb_spec i (Z.of_nat k)); auto.
  - rewrite Ic, nthZ_map. destruct (nthZ_in_range (p_cexp P) (i - Z.of_nat k) ltac:(lia)) as [c ->]. reflexivity.
  - rewrite Id, nthZ_map. destruct (nthZ_in_range (p_dexp P) (i - Z.of_nat k) ltac:(lia)) as [c ->]. reflexivity.
Qed.
Print Assumptions explicit_history.

(** C37. The momentum right-hand side of a step: U/dt - G p, plus the stored
    terms times their coefficients, plus the implicit boundary correction. The
    histories used are the ones the step leaves behind. *)
Theorem momentum_right_hand_side : forall m D P ops conv vs ps s s2,
  advance m D P ops conv vs ps s = Ok s2 ->
  exists rhs1 c B1, bc_call m D (OpEqs (s_U s) (p_dt P)) (s_bc s) = Ok B1 /\
    correction_mult m (nranks D) (o_L ops) B1 = Ok c /\
    (forall i, rhs1 i = s_U s i / p_dt P - mvec (n_pressure m) (o_G ops) (s_p s) i
                        + weighted (p_cexp P) (s_conv s2) i + weighted (p_dexp P) (s_diff s2) i + p_dimp P * p_nu P * c i) /\
    s_U s2 = vaxpy (vs (s_U s) rhs1) (-1) (mvec (n_pressure m) (o_BNG ops) (s_dP s2)) /\
    s_p s2 = vaxpy (s_p s) 1 (s_dP s2) /\ s_t s2 = s_t s + p_dt P /\ s_ite s2 = (s_ite s + 1)%Z.
Proof.
  intros m D P ops conv vs ps s s2 Ha.
  destruct (advance_inv _ _ _ _ _ _ _ _ _ Ha) as (rhs1 & s1 & b & X1 & X2 & XB1 & XdP & XU & Xp & XB2 & Xt & Xi & Xc & Xd).
  destruct (rhs_value _ _ _ _ _ _ _ _ _ X1) as (c & Ec & Hr). cbn [s_U s_p] in Hr. exists rhs1, c, (s_bc s1). rewrite Xc, Xd, XdP.
  repeat split; auto.
Qed.
Print Assumptions momentum_right_hand_side.

(** C55. The fractional step solves the momentum equation up to the splitting
    error of order N: if the momentum solve is exact for its right-hand side
    rhs1, the new velocity and the pressure increment satisfy
    A u + G dp = rhs1 + (dt dimp nu L)^N G dp. *)
Theorem fractional_step_momentum : forall m D P types values t0 n0 U0 p0 ops s0 conv vs ps s s2 rhs1 s1,
  mesh_setup m D -> bc_fits m types -> p_dt P <> 0 ->
  ns_init m D P types values t0 n0 U0 p0 = Ok (ops, s0) ->
  advance m D P ops conv vs ps s = Ok s2 ->
  assembleRHSVelocity m D P ops conv (mkNS (s_t s + p_dt P) (s_ite s + 1) (s_U s) (s_p s) (s_dP s) (s_conv s) (s_diff s) (s_bc s)) = Ok (rhs1, s1) ->
  let nv := n_velocity m in let np := n_pressure m in let L := entry (op_log (o_L ops)) in let c := p_dimp P * p_nu P in
  solves nv (implicit_matrix mident (p_dt P) c L) (vs (s_U s) rhs1) rhs1 ->
  meq nv (o_A ops) (implicit_matrix mident (p_dt P) c L) /\
  forall i, (0 <= i < nv)%Z ->
    mvec nv (implicit_matrix mident (p_dt P) c L) (s_U s2) i + mvec np (o_G ops) (s_dP s2) i
    = rhs1 i + mvec nv (mpow nv (mscale (c * p_dt P) L) (Z.to_nat (p_bn P))) (mvec np (o_G ops) (s_dP s2)) i.
Proof.
  intros m D P types values t0 n0 U0 p0 ops s0 conv vs ps s s2 rhs1 s1 Hset Hb Hdt HI Ha E1 nv np L c Hsol. pose proof (setup_facts _ _ Hset) as F.
  destruct (ns_init_inv _ _ _ _ _ _ _ _ _ _ _ F Hb HI) as (B0 & HB0 & EO & _).
  destruct (createOperators_inv _ _ _ _ _ EO) as (d & g & l & BN & Ed & Eg & El & EB & EOps).
  assert (Hn : (1 <= p_bn P)%Z) by (unfold createBnHead in EB; destruct (Z.ltb_spec (p_bn P) 1); [discriminate|lia]).
  assert (EL : L = entry (op_log l)) by (unfold L; now rewrite EOps).
  destruct (bnhead_lemma nv L (p_dt P) c (p_bn P) Hdt Hn) as (BN' & EB' & Hinv). unfold nv, c in EB'. rewrite EL in EB'.
  rewrite EB in EB'. injection EB' as <-.
  destruct (advance_inv _ _ _ _ _ _ _ _ _ Ha) as (rhs1' & s1' & b' & X1 & X2 & XB1 & XdP & XU & _).
  rewrite E1 in X1. injection X1 as <- <-.
  assert (EG : o_BNG ops = mmul nv BN (o_G ops)) by (now rewrite EOps). split.
  - intros i j Hi Hj. rewrite EL, EOps. cbn [o_A]. unfold mshift, mscale, implicit_matrix, mident, c. destruct (i =? j)%Z; lra.
  - intros i Hi. rewrite XU, mvec_axpy, Hsol by auto. rewrite <- XdP, EG.
    set (y := mvec np (o_G ops) (s_dP s2)).
    rewrite (mvec_ext nv (implicit_matrix mident (p_dt P) c L) (implicit_matrix mident (p_dt P) c L) (mvec (n_pressure m) (mmul nv BN (o_G ops)) (s_dP s2)) (mvec nv BN y) i)
      by (auto; intros; apply mvec_mmul).
    rewrite <- mvec_mmul. rewrite (mvec_ext nv _ (msub mident (mpow nv (mscale (c * p_dt P) L) (Z.to_nat (p_bn P)))) y y i) by (auto; intros; now apply Hinv).
    assert (EI : mvec nv (msub mident (mpow nv (mscale (c * p_dt P) L) (Z.to_nat (p_bn P)))) y i = y i - mvec nv (mpow nv (mscale (c * p_dt P) L) (Z.to_nat (p_bn P))) y i).
    { unfold mvec, zsum, msub. rewrite (sumR_ext _ (fun j => mident i j * y j - mpow nv (mscale (c * p_dt P) L) (Z.to_nat (p_bn P)) i j * y j)) by (intros; lra).
      rewrite sumR_minus. f_equal. rewrite (sumR_single _ _ i); [|apply zrange_NoDup|now apply zrange_In|].
      - unfold mident. rewrite Z.eqb_refl. lra.
      - intros j _ Hj. unfold mident. replace (i =? j)%Z with false by lia. lra. }
    rewrite EI. lra.
Qed.
Print Assumptions fractional_step_momentum.

(** C56. Setting up the solver and every time step succeed (no error code, no
    out-of-bounds access) on every mesh, boundary table and initial field, for
    every order Bn >= 1, provided the convection operator does. *)
Theorem ns_run_never_fails : forall m D P types values t0 n0 U0 p0 conv vs ps k,
  mesh_setup m D -> bc_fits m types -> (1 <= p_bn P)%Z ->
  (forall h B x, boundary_after m D types values ([OpICs U0] ++ h) B -> is_ok (conv B x)) ->
  exists ops s0 s, ns_init m D P types values t0 n0 U0 p0 = Ok (ops, s0) /\ ns_steps m D P ops conv vs ps k s0 = Ok s.
Proof.
  intros m D P types values t0 n0 U0 p0 conv vs ps k Hset Hb Hn Hc. pose proof (setup_facts _ _ Hset) as F.
  destruct (init_total m D P types values t0 n0 U0 p0 F Hb Hn) as (ops & s0 & HI). exists ops, s0.
  destruct (steps_total m D P types values F Hb conv vs ps t0 n0 U0 p0 ops s0 k HI Hc) as (s & Hs). exists s. auto.
Qed.
Print Assumptions ns_run_never_fails.

(** The hypotheses are met: the 4 x 3 mesh, periodic in x and y, on two ranks,
    any initial fields, any pressure increment q; the momentum solver returns
    Bn G q, so that q solves the Poisson system exactly. *)
Definition per_types (f loc : Z) : bctype := PERIODIC.
Definition ex_par (refp : bool) : nspar := mkPar (1/100) 1 2 [3/2; -(1/2)] (1/2) [1/2] refp.
Lemma ex_per_fits : bc_fits (ex_mesh true true) per_types.
Proof.
  intros f loc Hf Hl. rewrite ex_dim in Hl. split; [discriminate|].
  assert (loc = 0 \/ loc = 1 \/ loc = 2 \/ loc = 3)%Z as [->|[->|[->| ->]]] by lia; split; reflexivity.
Qed.
Lemma ex_per_min k : (k <= 3)%Z -> periodic_min (ex_mesh true true) k.
Proof.
  intros Hk f d Hf Hd. rewrite ex_dim in *.
  assert (f = 0 \/ f = 1)%Z as [->| ->] by lia; assert (d = 0 \/ d = 1)%Z as [->| ->] by lia; intros H; try discriminate;
    match goal with |- (_ <= ?a)%Z => first [change a with 3%Z; exact Hk | change a with 4%Z; lia] end.
Qed.
Lemma periodic_no_points m D values r h : bpts m D per_types values h r = [].
Proof.
  unfold bpts. assert (E : forall A B (f : A -> list B) l, (forall x, f x = []) -> flat_map f l = []).
  { intros A B f l H. induction l as [|x t IH]; [reflexivity|]. cbn [flat_map]. now rewrite H, IH. }
  apply E. intros f. apply E. intros l. unfold sb_after, bsb, per_types. cbn. reflexivity.
Qed.
Lemma periodic_case m D U0 p0 q k : mesh_setup m D -> bc_fits m per_types -> periodic_min m 2 ->
  exists ops s0 vs ps s s2 rhs1 s1 b u, mesh_setup m D /\ bc_fits m per_types /\ periodic_min m 2 /\
    ns_init m D (ex_par false) per_types (fun _ _ => 0) 0 0 U0 p0 = Ok (ops, s0) /\
    ns_steps m D (ex_par false) ops (fun _ x => Ok x) vs ps k s0 = Ok s /\
    advance m D (ex_par false) ops (fun _ x => Ok x) vs ps s = Ok s2 /\
    assembleRHSVelocity m D (ex_par false) ops (fun _ x => Ok x) (mkNS (s_t s + p_dt (ex_par false)) (s_ite s + 1) (s_U s) (s_p s) (s_dP s) (s_conv s) (s_diff s) (s_bc s)) = Ok (rhs1, s1) /\
    assembleRHSPoisson m D (ex_par false) ops (vs (s_U s) rhs1) (s_bc s1) = Ok b /\
    solves (n_pressure m) (o_DBNG ops) (ps (s_dP s) b) b /\ ps (s_dP s) b = q /\
    extends m D (s_bc s2) (s_U s2) u.
Proof.
  intros Hset Hb Hmin. pose proof (setup_facts _ _ Hset) as F.
  destruct (init_total m D (ex_par false) per_types (fun _ _ => 0) 0 0 U0 p0 F Hb ltac:(cbn; lia)) as (ops & s0 & HI).
  set (vs := fun (_ _ : vec) => mvec (n_pressure m) (o_BNG ops) q). set (ps := fun (_ _ : vec) => q).
  destruct (steps_total m D (ex_par false) per_types (fun _ _ => 0) F Hb (fun _ x => Ok x) vs ps 0 0 U0 p0 ops s0 (S k) HI) as (s2 & Hs2).
  { intros. eexists. reflexivity. }
  pose proof Hs2 as Hs2'. cbn [ns_steps] in Hs2'. apply bind_ok_inv in Hs2'. destruct Hs2' as (s & Hs & Ha).
  destruct (advance_inv _ _ _ _ _ _ _ _ _ Ha) as (rhs1 & s1 & b & X1 & X2 & XB1 & XdP & XU & Xp & XB2 & _).
  destruct (steps_boundary _ _ _ _ _ _ _ _ _ _ _ _ _ _ _ _ F Hb HI Hs2) as (h2 & Hh2).
  destruct (extends_exists m D per_types (fun _ _ => 0) _ _ (s_U s2) F Hb Hh2) as [u Hu].
  exists ops, s0, vs, ps, s, s2, rhs1, s1, b, u.
  split; [exact Hset|]. split; [exact Hb|]. split; [exact Hmin|]. split; [exact HI|]. split; [exact Hs|]. split; [exact Ha|].
  split; [exact X1|]. split; [exact X2|]. split; [|split; [reflexivity|exact Hu]].
  destruct (steps_boundary _ _ _ _ _ _ _ _ _ _ _ _ _ _ _ _ F Hb HI Hs) as (h1 & Hh1).
  pose proof (bc_call_inv m D per_types (fun _ _ => 0) _ _ _ _ F Hb Hh1 XB1) as HB1. rewrite <- app_assoc in HB1.
  destruct (ns_init_inv _ _ _ _ _ _ _ _ _ _ _ F Hb HI) as (B0 & HB0 & EO & _).
  destruct (createOperators_inv _ _ _ _ _ EO) as (d & g & l & BN & Ed & Eg & El & EB & EOps).
  rewrite (createDivergence_ok m D per_types (fun _ _ => 0) false [OpICs U0] B0 F Hb HB0) in Ed. injection Ed as Ed.
  unfold assembleRHSPoisson in X2. assert (EoD : o_D ops = d) by (now rewrite EOps). rewrite EoD, <- Ed in X2.
  rewrite (correct m D per_types (fun _ _ => 0) (div_rows m D false) [OpICs U0] (h1 ++ [OpEqs (s_U s) (p_dt (ex_par false))]) F Hb (s_bc s1) HB1) in X2.
  cbn [bind ex_par p_refp] in X2. injection X2 as <-. intros i Hi.
  assert (EoA : o_DBNG ops = mmul (n_velocity m) (entry (op_log d)) (o_BNG ops)) by (now rewrite EOps).
  rewrite EoA, mvec_mmul. unfold vaxpy. rewrite <- Ed. unfold vs, op_of. cbn [op_log].
  assert (Z0 : forall h, asm_corr (nranks D) (div_rows m D false) (bpts m D per_types (fun _ _ => 0) h) = []).
  { intros h. unfold asm_corr. induction (zrange 0 (nranks D)) as [|r t IH]; [reflexivity|]. cbn [flat_map]. rewrite IH, periodic_no_points. reflexivity. }
  rewrite Z0. unfold ps. change (vec_add_all [] i) with 0. lra.
Qed.
Example projection_case : forall U0 p0 q k, let m := ex_mesh true true in let D := ex_dec true true in
  exists ops s0 vs ps s s2 rhs1 s1 b u, mesh_setup m D /\ bc_fits m per_types /\ periodic_min m 2 /\
    ns_init m D (ex_par false) per_types (fun _ _ => 0) 0 0 U0 p0 = Ok (ops, s0) /\
    ns_steps m D (ex_par false) ops (fun _ x => Ok x) vs ps k s0 = Ok s /\
    advance m D (ex_par false) ops (fun _ x => Ok x) vs ps s = Ok s2 /\
    assembleRHSVelocity m D (ex_par false) ops (fun _ x => Ok x) (mkNS (s_t s + p_dt (ex_par false)) (s_ite s + 1) (s_U s) (s_p s) (s_dP s) (s_conv s) (s_diff s) (s_bc s)) = Ok (rhs1, s1) /\
    assembleRHSPoisson m D (ex_par false) ops (vs (s_U s) rhs1) (s_bc s1) = Ok b /\
    solves (n_pressure m) (o_DBNG ops) (ps (s_dP s) b) b /\ ps (s_dP s) b = q /\
    extends m D (s_bc s2) (s_U s2) u.
Proof. intros U0 p0 q k. apply periodic_case; [apply ex_setup|apply ex_per_fits|apply ex_per_min; lia]. Qed.
Example pin_case : let A := fun i j : Z => if (i =? j)%Z then 1 else -1 in let b := fun i : Z => if (i =? 0)%Z then 3 else -3 in
  total 2 b = 0 /\ (forall i, (0 <= i < 2)%Z -> zsum (A i) 0 2 = 0) /\
  solves 2 (pin A) (fun i => if (i =? 0)%Z then 0 else -3) (fun i => if (i =? 0)%Z then 0 else b i).
Proof.
  split; [cbv -[IZR Rplus Rminus Rmult Rinv Rdiv Ropp]; lra|].
  split; intros i Hi; assert (i = 0 \/ i = 1)%Z as [->| ->] by lia; cbv -[IZR Rplus Rminus Rmult Rinv Rdiv Ropp]; lra.
Qed.
(** Order 1 with a pinned pressure on the periodic mesh: the hypotheses of the
    theorems on the pinned matrix hold for any initial state. *)
Example pinned_case : forall U0 p0, let m := ex_mesh true true in let D := ex_dec true true in let P := mkPar (1/100) 1 1 [3/2; -(1/2)] (1/2) [1/2] true in
  exists ops s0, mesh_setup m D /\ bc_fits m per_types /\ periodic_min m 2 /\ no_normal_neumann m per_types /\ p_bn P = 1%Z /\ 0 < p_dt P /\ p_refp P = true /\
    ns_init m D P per_types (fun _ _ => 0) 0 0 U0 p0 = Ok (ops, s0) /\ (2 <= n_pressure m)%Z.
Proof.
  intros U0 p0 m D P. pose proof (ex_setup true true) as Hs.
  destruct (init_total m D P per_types (fun _ _ => 0) 0 0 U0 p0 (setup_facts _ _ Hs) ex_per_fits ltac:(cbn; lia)) as (ops & s0 & HI).
  exists ops, s0. split; [exact Hs|]. split; [exact ex_per_fits|]. split; [apply ex_per_min; lia|].
  split; [intros f Hf; split; discriminate|]. split; [reflexivity|]. split; [cbn; lra|]. split; [reflexivity|]. split; [exact HI|].
  match goal with |- (_ <= ?a)%Z => let v := eval vm_compute in a in change a with v end. lia.
Qed.
