(** C49: the constraints of the immersed-boundary solvers. *)
From Coq Require Import String ZifyBool Permutation.
From Verif Require Import Prelude ZSum RSum TypesModel GridModel GridSpec GridProof MeshProof IndexModel IndexSpec IndexProof
  BoundaryModel BoundarySpec BoundaryProof OperatorModel OperatorSpec OperatorProof BStateProof LapProof DivProof GradProof AdjProof SymProof
  MatModel BnModel BnSpec BnProof NSModel NSSpec NSProof NSTotal NSProps ConvSpec ConvTotal BodyModel BodySpec BodyProof
  DeltaModel DeltaSpec DeltaProof DeltaSum DeltaKernel DeltaProps ExampleSetup IbpmModel IbpmSpec IbpmProof IbpmStep IbpmDec.
Local Open Scope R_scope.

(** C49, coupled solver. s is the state after any number k of steps from any
    initial velocity, s2 the state after one more step; the intermediate
    velocity is whatever the momentum solver returned. If the solver of the
    combined system returned an exact solution for its right-hand side b, then
    the new velocity has no net flux out of any cell (extended by the ghost
    values of this step), and at the same time the interpolation operator of
    the bodies applied to it is zero in every row. With a pinned pressure the
    right-hand side must be compatible. *)
Theorem coupled_divergence_free_and_no_slip : forall m D P types values name bodies t0 n0 U0 p0 O s0 conv vs ps k s s2 rhs1 s1 b u,
  mesh_setup m D -> bc_fits m types -> bodies_ok m D bodies -> periodic_min m 2 ->
  ib_init m D P types values name bodies t0 n0 U0 p0 = Ok (O, s0) -> run_steps (ib_advance m D P O conv vs ps) k s0 = Ok s ->
  ib_advance m D P O conv vs ps s = Ok s2 ->
  rhs_velocity (ib_n O) m D P (ib_ns O) conv (begun P s) = Ok (rhs1, s1) ->
  ib_assembleRHSPoisson m D P O (vs (s_U s) rhs1) (s_bc s1) = Ok b ->
  solves (ib_n O) (o_DBNG (ib_ns O)) (ps (s_dP s) b) b ->
  (p_refp P = true -> no_normal_neumann m types /\
     exists c, correction_mult m (nranks D) (o_D (ib_ns O)) (s_bc s1) = Ok c /\
       total (n_pressure m) (vaxpy c 1 (mvec (n_velocity m) (entry (op_log (o_D (ib_ns O)))) (vs (s_U s) rhs1))) = 0) ->
  extends m D (s_bc s2) (s_U s2) u ->
  (forall p, interior (m_n m 3) p -> net_flux m false u p = 0) /\
  exists B E H, boundary_after m D types values [OpICs U0] B /\ ib_operators m D B name bodies = Ok (E, H) /\
    forall row, (0 <= row < n_forces m bodies)%Z -> mvec (n_velocity m) E (s_U s2) row = 0.
Proof.
  intros m D P types values name bodies t0 n0 U0 p0 O s0 conv vs ps k s s2 rhs1 s1 b u Hs Hb Hbo.
  exact (coupled_step m D P types values name bodies Hs Hb Hbo t0 n0 U0 p0 O s0 conv vs ps k s s2 rhs1 s1 b u).
Qed.
Print Assumptions coupled_divergence_free_and_no_slip.

(** C49 on meshes that are uniform around the bodies, without the matrices: the new velocity sampled with
    the regularised delta function at any point of any body is zero. *)
Theorem coupled_no_slip_at_points : forall m D P types values name bodies t0 n0 U0 p0 O s0 conv vs ps k s s2 rhs1 s1 b h K w,
  mesh_setup m D -> bc_fits m types -> bodies_ok m D bodies -> periodic_min m 2 ->
  uniform_around m h w bodies -> getKernel name = Ok (K, w) -> wide_enough m w ->
  ib_init m D P types values name bodies t0 n0 U0 p0 = Ok (O, s0) -> run_steps (ib_advance m D P O conv vs ps) k s0 = Ok s ->
  ib_advance m D P O conv vs ps s = Ok s2 ->
  rhs_velocity (ib_n O) m D P (ib_ns O) conv (begun P s) = Ok (rhs1, s1) ->
  ib_assembleRHSPoisson m D P O (vs (s_U s) rhs1) (s_bc s1) = Ok b ->
  solves (ib_n O) (o_DBNG (ib_ns O)) (ps (s_dP s) b) b ->
  (p_refp P = true -> no_normal_neumann m types /\
     exists c, correction_mult m (nranks D) (o_D (ib_ns O)) (s_bc s1) = Ok c /\
       total (n_pressure m) (vaxpy c 1 (mvec (n_velocity m) (entry (op_log (o_D (ib_ns O)))) (vs (s_U s) rhs1))) = 0) ->
  forall bd i c X, located bodies bd i X -> (0 <= c < m_dim m)%Z -> sampled m D K h c X (s_U s2) = 0.
Proof.
  intros m D P types values name bodies t0 n0 U0 p0 O s0 conv vs ps k s s2 rhs1 s1 b h K w Hs Hb Hbo Hmin Hu HK Hw HI Hk Ha E1 E2 Hsol Hpin bd i c X Hl Hc.
  assert (Hk' : run_steps (ib_advance m D P O conv vs ps) (S k) s0 = Ok s2) by (cbn [run_steps]; rewrite Hk; exact Ha).
  destruct (ib_steps_boundary _ _ _ _ _ _ _ Hs Hb _ _ _ _ _ _ _ _ _ _ _ HI Hk') as (h2 & Hh2).
  destruct (extends_exists m D types values _ _ (s_U s2) (setup_facts _ _ Hs) Hb Hh2) as [u Hu2].
  destruct (coupled_step m D P types values name bodies Hs Hb Hbo t0 n0 U0 p0 O s0 conv vs ps k s s2 rhs1 s1 b u Hmin HI Hk Ha E1 E2 Hsol Hpin Hu2) as (_ & B & E & H & HB & EI & Z0).
  destruct (located_row m D bodies bd i c X Hbo Hl Hc) as (row & Hr & Er).
  rewrite <- (sampled_row m D h B name bodies types values _ E H row bd i c X (s_U s2) K w Hs Hu Hbo HK Hb HB Hw EI Er Hl). now apply Z0.
Qed.
Print Assumptions coupled_no_slip_at_points.

(** C49. The momentum equation of the coupled step: pressure and forces act
    together, -G p + H f, explicitly with the old values and implicitly with
    the increments, up to the splitting error of order N. *)
Theorem coupled_momentum : forall m D P types values name bodies t0 n0 U0 p0 O s0 conv vs ps s s2,
  mesh_setup m D -> bc_fits m types -> bodies_ok m D bodies -> p_dt P <> 0 ->
  ib_init m D P types values name bodies t0 n0 U0 p0 = Ok (O, s0) ->
  ib_advance m D P O conv vs ps s = Ok s2 ->
  let nv := n_velocity m in let np := n_pressure m in let nf := n_forces m bodies in
  let Lay := nest_layout (nranks D) (pressure_l D) (bp_nLclAllProcs (m_dim m) (map fst bodies)) in
  exists B E H g L rhs1 B1 c, boundary_after m D types values [OpICs U0] B /\ ib_operators m D B name bodies = Ok (E, H) /\
    createGradient m D false = Ok g /\ createLaplacian m D B = Ok L /\
    bc_call m D (OpEqs (s_U s) (p_dt P)) (s_bc s) = Ok B1 /\ correction_mult m (nranks D) L B1 = Ok c /\
    let press := nest_sub Lay 0 in let force := nest_sub Lay 1 in let k := p_dimp P * p_nu P in
    (forall i, rhs1 i = s_U s i / p_dt P - mvec np (entry g) (press (s_p s)) i + mvec nf H (force (s_p s)) i
                        + weighted (p_cexp P) (s_conv s2) i + weighted (p_dexp P) (s_diff s2) i + k * c i) /\
    (forall j, (0 <= j < np)%Z -> press (s_p s2) j = press (s_p s) j + press (s_dP s2) j) /\
    (forall j, (0 <= j < nf)%Z -> force (s_p s2) j = force (s_p s) j + force (s_dP s2) j) /\
    (solves nv (implicit_matrix mident (p_dt P) k (entry (op_log L))) (vs (s_U s) rhs1) rhs1 ->
     forall i, (0 <= i < nv)%Z ->
       let imp := fun j => mvec np (entry g) (press (s_dP s2)) j - mvec nf H (force (s_dP s2)) j in
       mvec nv (implicit_matrix mident (p_dt P) k (entry (op_log L))) (s_U s2) i + imp i
       = rhs1 i + mvec nv (mpow nv (mscale (k * p_dt P) (entry (op_log L))) (Z.to_nat (p_bn P))) imp i).
Proof.
  intros m D P types values name bodies t0 n0 U0 p0 O s0 conv vs ps s s2 Hs Hb Hbo.
  exact (coupled_momentum_lemma m D P types values name bodies Hs Hb Hbo t0 n0 U0 p0 O s0 conv vs ps s s2).
Qed.
Print Assumptions coupled_momentum.

(** Setting up and running the coupled solver never fails, on any mesh,
    when every point is inside the domain and within reach and every rank has
    a point of every body. *)
Theorem coupled_never_fails : forall m D P types values name bodies K w conv vs ps t0 n0 U0 p0 k,
  mesh_setup m D -> bc_fits m types -> bodies_ok m D bodies -> getKernel name = Ok (K, w) -> (1 <= p_bn P)%Z ->
  (forall b i X, located bodies b i X -> inside_domain m X /\ in_reach m types w X) ->
  (forall b bc r, nthZ bodies b = Some bc -> (0 <= r < nranks D)%Z -> (0 < b_l (fst bc) r)%Z) ->
  (forall hist B x, boundary_after m D types values ([OpICs U0] ++ hist) B -> is_ok (conv B x)) ->
  exists O s0 s, ib_init m D P types values name bodies t0 n0 U0 p0 = Ok (O, s0) /\ run_steps (ib_advance m D P O conv vs ps) k s0 = Ok s.
Proof.
  intros m D P types values name bodies K w conv vs ps t0 n0 U0 p0 k Hs Hb Hbo.
  exact (coupled_total m D P types values name bodies Hs Hb Hbo K w conv vs ps t0 n0 U0 p0 k).
Qed.
Print Assumptions coupled_never_fails.

(** C49, decoupled solver: the velocity stays free of divergence. *)
Theorem decoupled_divergence_free : forall m D P types values name bodies t0 n0 U0 p0 O X x0 conv vs ps fs k x x2 rhs0 s1 b u,
  mesh_setup m D -> bc_fits m types -> periodic_min m 2 ->
  d_init m D P types values name bodies t0 n0 U0 p0 = Ok (O, X, x0) ->
  let nf := n_forces m bodies in
  let step := d_advance m D P O X nf conv (d_assembleRHSForces m X) vs ps fs in
  run_steps step k x0 = Ok x -> step x = Ok x2 ->
  rhs_velocity (n_pressure m) m D P O conv (begun P (x_ns x)) = Ok (rhs0, s1) ->
  let U1 := vs (s_U (x_ns x)) (vaxpy rhs0 1 (mvec nf (di_H X) (x_f x))) in
  let U2 := vaxpy U1 1 (mvec nf (di_BNH X) (x_df x2)) in
  assembleRHSPoisson m D P O U2 (s_bc s1) = Ok b ->
  solves (n_pressure m) (o_DBNG O) (ps (s_dP (x_ns x)) b) b ->
  (p_refp P = true -> no_normal_neumann m types /\
     exists c, correction_mult m (nranks D) (o_D O) (s_bc s1) = Ok c /\
       total (n_pressure m) (vaxpy c 1 (mvec (n_velocity m) (entry (op_log (o_D O))) U2)) = 0) ->
  extends m D (s_bc (x_ns x2)) (s_U (x_ns x2)) u ->
  forall p, interior (m_n m 3) p -> net_flux m false u p = 0.
Proof.
  intros m D P types values name bodies t0 n0 U0 p0 O X x0 conv vs ps fs k x x2 rhs0 s1 b u Hs Hb Hmin HI nf step Hk Ha E1 U1 U2 E2 Hsol Hpin Hext.
  destruct (d_init_inv m D P types values Hs Hb _ _ _ _ _ _ _ _ _ HI) as (B0 & HB0 & EO & _ & _).
  destruct (d_steps_boundary m D P types values Hs Hb _ _ _ _ _ _ _ _ _ _ _ _ _ _ _ _ _ HI Hk) as ((h1 & Hh) & _).
  exact (decoupled_divergence m D P types values Hs Hb O B0 U0 h1 X nf conv (d_assembleRHSForces m X) vs ps fs x x2 rhs0 s1 b u Hmin EO HB0 Hh Ha E1 E2 Hsol Hpin Hext).
Qed.
Print Assumptions decoupled_divergence_free.

(** C49, decoupled solver on meshes that are uniform around the bodies: if the solver of the forces
    returned an exact solution, the new velocity sampled at any point of any
    body is zero up to the sampled velocity correction of the pressure
    projection that followed. *)
Theorem decoupled_slip : forall m D P types values name bodies t0 n0 U0 p0 O X x0 conv vs ps fs k x x2 rhs0 s1 h K w,
  mesh_setup m D -> bc_fits m types -> bodies_ok m D bodies -> uniform_around m h w bodies -> getKernel name = Ok (K, w) -> wide_enough m w ->
  d_init m D P types values name bodies t0 n0 U0 p0 = Ok (O, X, x0) ->
  let nf := n_forces m bodies in
  let step := d_advance m D P O X nf conv (d_assembleRHSForces m X) vs ps fs in
  run_steps step k x0 = Ok x -> step x = Ok x2 ->
  rhs_velocity (n_pressure m) m D P O conv (begun P (x_ns x)) = Ok (rhs0, s1) ->
  (let b := d_assembleRHSForces m X (vs (s_U (x_ns x)) (vaxpy rhs0 1 (mvec nf (di_H X) (x_f x)))) in
   solves nf (di_EBNH X) (fs (x_df x) b) b) ->
  forall bd i c Y, located bodies bd i Y -> (0 <= c < m_dim m)%Z ->
    sampled m D K h c Y (s_U (x_ns x2)) = - sampled m D K h c Y (mvec (n_pressure m) (o_BNG O) (s_dP (x_ns x2))).
Proof.
  intros m D P types values name bodies t0 n0 U0 p0 O X x0 conv vs ps fs k x x2 rhs0 s1 h K w Hs Hb Hbo Hu HK Hw HI nf step Hk Ha E1 Hsol bd i c Y Hl Hc.
  destruct (d_init_inv m D P types values Hs Hb _ _ _ _ _ _ _ _ _ HI) as (B0 & HB0 & EO & EX & _).
  destruct (located_row m D bodies bd i c Y Hbo Hl Hc) as (row & Hr & Er).
  pose proof (slip_lemma m D P O B0 name bodies X conv (d_assembleRHSForces m X) (fun _ => 0) vs ps fs x x2 rhs0 s1 EX) as S.
  specialize (S ltac:(intros U j Hj; unfold d_assembleRHSForces, vscale; lra) Ha E1 Hsol row Hr).
  destruct (extra_inv m D P _ _ _ _ _ EX) as (E & H & BN & EI & EB & ->). cbn [di_E] in S.
  rewrite !(sampled_row m D h B0 name bodies types values _ E H row bd i c Y _ K w Hs Hu Hbo HK Hb HB0 Hw EI Er Hl) in S. lra.
Qed.
Print Assumptions decoupled_slip.

(** C49. The momentum equation of the decoupled step. *)
Theorem decoupled_momentum : forall m D P types values name bodies t0 n0 U0 p0 O X x0 conv vs ps fs x x2,
  mesh_setup m D -> bc_fits m types -> p_dt P <> 0 ->
  d_init m D P types values name bodies t0 n0 U0 p0 = Ok (O, X, x0) ->
  d_advance m D P O X (n_forces m bodies) conv (d_assembleRHSForces m X) vs ps fs x = Ok x2 ->
  let s := x_ns x in let s2 := x_ns x2 in let nv := n_velocity m in let np := n_pressure m in
  let nf := n_forces m bodies in let L := entry (op_log (o_L O)) in let k := p_dimp P * p_nu P in
  exists rhs1 B1 c, bc_call m D (OpEqs (s_U s) (p_dt P)) (s_bc s) = Ok B1 /\ correction_mult m (nranks D) (o_L O) B1 = Ok c /\
    (forall i, rhs1 i = s_U s i / p_dt P - mvec np (o_G O) (s_p s) i + mvec nf (di_H X) (x_f x) i
                        + weighted (p_cexp P) (s_conv s2) i + weighted (p_dexp P) (s_diff s2) i + k * c i) /\
    s_p s2 = vaxpy (s_p s) 1 (s_dP s2) /\ x_f x2 = vaxpy (x_f x) 1 (x_df x2) /\
    (solves nv (implicit_matrix mident (p_dt P) k L) (vs (s_U s) rhs1) rhs1 ->
     forall i, (0 <= i < nv)%Z ->
       let imp := fun j => mvec np (o_G O) (s_dP s2) j - mvec nf (di_H X) (x_df x2) j in
       mvec nv (implicit_matrix mident (p_dt P) k L) (s_U s2) i + imp i
       = rhs1 i + mvec nv (mpow nv (mscale (k * p_dt P) L) (Z.to_nat (p_bn P))) imp i).
Proof.
  intros m D P types values name bodies t0 n0 U0 p0 O X x0 conv vs ps fs x x2 Hs Hb Hdt HI Ha.
  destruct (d_init_inv m D P types values Hs Hb _ _ _ _ _ _ _ _ _ HI) as (B0 & HB0 & EO & EX & _).
  exact (decoupled_momentum_lemma m D P O B0 B0 name bodies X conv (d_assembleRHSForces m X) vs ps fs x x2 Hdt EO EX Ha).
Qed.
Print Assumptions decoupled_momentum.

Theorem decoupled_never_fails : forall m D P types values name bodies K w conv vs ps fs t0 n0 U0 p0 k,
  mesh_setup m D -> bc_fits m types -> bodies_ok m D bodies -> getKernel name = Ok (K, w) -> (1 <= p_bn P)%Z ->
  (forall b i X, located bodies b i X -> inside_domain m X /\ in_reach m types w X) ->
  (forall b bc r, nthZ bodies b = Some bc -> (0 <= r < nranks D)%Z -> (0 < b_l (fst bc) r)%Z) ->
  (forall hist B x, boundary_after m D types values ([OpICs U0] ++ hist) B -> is_ok (conv B x)) ->
  exists O X x0 x, d_init m D P types values name bodies t0 n0 U0 p0 = Ok (O, X, x0) /\
    run_steps (d_advance m D P O X (n_forces m bodies) conv (d_assembleRHSForces m X) vs ps fs) k x0 = Ok x.
Proof.
  intros m D P types values name bodies K w conv vs ps fs t0 n0 U0 p0 k Hs Hb Hbo.
  exact (decoupled_total m D P types values Hs Hb K w name bodies conv (d_assembleRHSForces m) vs ps fs t0 n0 U0 p0 k Hbo).
Qed.
Print Assumptions decoupled_never_fails.

(** ** Concrete cases *)

(** With boundary values of a uniform flow the divergence of that flow and the
    boundary correction cancel. *)
Lemma uniform_correction m D types values c w U0 h1 B0 B1 d cc : mesh_setup m D -> bc_fits m types -> periodic_min m 2 ->
  uniform_bc m types values c -> uniform_velocity m D c w ->
  boundary_after m D types values [OpICs U0] B0 -> boundary_after m D types values ([OpICs U0] ++ h1) B1 ->
  createDivergence m D B0 false = Ok d -> correction_mult m (nranks D) d B1 = Ok cc ->
  forall i, (0 <= i < n_pressure m)%Z -> mvec (n_velocity m) (entry (op_log d)) w i + cc i = 0.
Proof.
  intros Hs Hb Hmin Hu Hw HB0 HB1 Ed Ec i Hi. pose proof (setup_facts _ _ Hs) as F.
  destruct (bc_call_after m D types values _ _ (OpVals w) F Hb HB1) as (B2 & _ & HB2).
  assert (X : extends_box m D B2 w (fun f q => c f)) by (apply (uniform_extends m D types values c ([OpICs U0] ++ h1) (OpVals w) B2 w); auto; exists U0; left; reflexivity).
  rewrite <- app_assoc in HB2.
  destruct (divergence_lemma m D types values false [OpICs U0] h1 w B0 B1 B2 (fun f q => c f) F Hb ltac:(exists U0; left; reflexivity) Hmin HB0 HB1 HB2 (proj1 X)) as (op & c' & E1 & E2 & E3).
  rewrite Ed in E1. injection E1 as <-. rewrite Ec in E2. injection E2 as <-.
  destruct (pressure_ids m D i F Hi) as (p & Hp). specialize (E3 i p Hp). change (mat_mult (op_log d) (n_velocity m) w i) with (mvec (n_velocity m) (entry (op_log d)) w i) in E3.
  rewrite E3. unfold net_flux. apply zsum_zero. intros f Hf. ring.
Qed.
Lemma un_min k : (k <= 8)%Z -> periodic_min (un_mesh false false) k.
Proof.
  intros Hk f d Hf Hd Hp. rewrite un_dim in Hf, Hd. assert (d = 0 \/ d = 1)%Z as [->| ->] by lia; discriminate Hp.
Qed.

(** Any body of two points in the middle of the walled box, any initial
    velocity, any number of steps; the pressure solver returns any vector q. *)
Example coupled_case : forall name K w U0 p0 q k, getKernel name = Ok (K, w) ->
  let m := un_mesh false false in let D := un_dec false false in let bodies := pair [4; 4] [13 / 4; 9 / 2] in let P := ex_par false in
  exists O s0 vs ps s s2 rhs1 s1 b u,
    mesh_setup m D /\ bc_fits m (un_types false false) /\ bodies_ok m D bodies /\ periodic_min m 2 /\
    uniform_around m unit_h w bodies /\ wide_enough m w /\ located bodies 0 0 [4; 4] /\
    ib_init m D P (un_types false false) (fun _ _ => 0) name bodies 0 0 U0 p0 = Ok (O, s0) /\
    run_steps (ib_advance m D P O (fun _ x => Ok x) vs ps) k s0 = Ok s /\ ib_advance m D P O (fun _ x => Ok x) vs ps s = Ok s2 /\
    rhs_velocity (ib_n O) m D P (ib_ns O) (fun _ x => Ok x) (begun P s) = Ok (rhs1, s1) /\
    ib_assembleRHSPoisson m D P O (vs (s_U s) rhs1) (s_bc s1) = Ok b /\
    solves (ib_n O) (o_DBNG (ib_ns O)) (ps (s_dP s) b) b /\ ps (s_dP s) b = q /\ extends m D (s_bc s2) (s_U s2) u.
Proof.
  intros name K w U0 p0 q k HK m D bodies P.
  pose proof (un_setup false false) as Hs. pose proof (un_fits false false) as Hb. pose proof (setup_facts _ _ Hs) as F.
  pose proof (pair_ok false false [4; 4] [13 / 4; 9 / 2] eq_refl eq_refl) as Hbo.
  assert (W : (w <= 3)%Z) by (destruct (getKernel_cases _ _ _ HK) as [(_ & _ & -> & _)|(_ & _ & -> & _)]; lia).
  assert (T : forall vs ps, exists O s0 s, ib_init m D P (un_types false false) (fun _ _ => 0) name bodies 0 0 U0 p0 = Ok (O, s0) /\
     run_steps (ib_advance m D P O (fun _ x => Ok x) vs ps) (S k) s0 = Ok s).
  { intros vs ps. apply (coupled_never_fails m D P (un_types false false) (fun _ _ => 0) name bodies K w (fun _ x => Ok x) vs ps 0 0 U0 p0 (S k) Hs Hb Hbo HK).
    - cbn. lia.
    - intros b i X Hl. apply pair_located in Hl. destruct Hl as (_ & [(_ & ->)|(_ & ->)]); apply un_reach; auto; lra.
    - apply pair_ranks.
    - intros. eexists. reflexivity. }
  destruct (T (fun _ _ _ => 0) (fun _ _ => q)) as (O & s0 & _ & HI & _).
  set (vs := fun (_ _ : vec) => mvec (ib_n O) (o_BNG (ib_ns O)) q). set (ps := fun (_ _ : vec) => q).
  destruct (T vs ps) as (O' & s0' & s2 & HI' & Hs2). rewrite HI in HI'. injection HI' as <- <-.
  pose proof Hs2 as Hs2'. cbn [run_steps] in Hs2'. apply bind_ok_inv in Hs2'. destruct Hs2' as (s & Hk & Ha).
  destruct (ib_advance_inv _ _ _ _ _ _ _ _ _ Ha) as (rhs1 & s1 & b & X1 & X2 & XB1 & XdP & XU & Xp & XB2 & _).
  destruct (ib_steps_boundary _ _ _ _ _ _ _ Hs Hb _ _ _ _ _ _ _ _ _ _ _ HI Hs2) as (h2 & Hh2).
  destruct (extends_exists m D (un_types false false) (fun _ _ => 0) _ _ (s_U s2) F Hb Hh2) as [u Hu].
  exists O, s0, vs, ps, s, s2, rhs1, s1, b, u.
  split; [exact Hs|]. split; [exact Hb|]. split; [exact Hbo|]. split; [apply un_min; lia|]. split; [apply (uniform_is_around m D unit_h w bodies Hs), un_uniform|]. split; [now apply un_wide|].
  split; [apply pair_located; auto|]. split; [exact HI|]. split; [exact Hk|]. split; [exact Ha|]. split; [exact X1|]. split; [exact X2|]. split; [|split; [reflexivity|exact Hu]].
  destruct (ib_steps_boundary _ _ _ _ _ _ _ Hs Hb _ _ _ _ _ _ _ _ _ _ _ HI Hk) as (h1 & Hh1).
  pose proof (bc_call_inv m D (un_types false false) (fun _ _ => 0) _ _ _ _ F Hb Hh1 XB1) as HB1. rewrite <- app_assoc in HB1.
  destruct (ib_init_inv _ _ _ _ _ _ _ Hs Hb _ _ _ _ _ _ HI) as (B0 & HB0 & EO & _).
  destruct (ib_createOperators_inv _ _ _ _ _ _ _ EO) as (d & g & l & E & H & BN & Ed & Eg & El & EI & EB & EOps).
  assert (EoD : o_D (ib_ns O) = d) by (now rewrite EOps). 
  unfold ib_assembleRHSPoisson in X2. apply bind_ok_inv in X2. destruct X2 as (cc & Ec & X2). change (p_refp P) with false in X2. cbv iota in X2. injection X2 as <-. rewrite EoD in Ec.
  assert (Z0 : forall i, (0 <= i < n_pressure m)%Z -> cc i = 0).
  { intros i Hi. pose proof (uniform_correction m D (un_types false false) (fun _ _ => 0) (fun _ => 0) (fun _ => 0) U0 (h1 ++ [OpEqs (s_U s) (p_dt P)]) B0 (s_bc s1) d cc Hs Hb (un_min 2 ltac:(lia))) as UC.
    specialize (UC ltac:(intros f loc Hf Hl Hp; left; split; [unfold un_types; destruct (loc <? 2)%Z; reflexivity|reflexivity]) ltac:(intros ? ? ? ?; reflexivity) HB0 HB1 Ed Ec i Hi).
    unfold mvec in UC. rewrite zsum_zero in UC by (intros; ring). lra. }
  assert (EoA : o_DBNG (ib_ns O) = mmul (n_velocity m) (ib_D O) (o_BNG (ib_ns O))) by (rewrite EOps; reflexivity).
  assert (EoL : ib_lay O = nest_layout (nranks D) (pressure_l D) (bp_nLclAllProcs (m_dim m) (map fst bodies))) by (rewrite EOps; reflexivity).
  intros i Hi. rewrite EoA, mvec_mmul. unfold ps, vs. rewrite EoL.
  destruct (nthZ _ i) as [[blk kk]|] eqn:En; [|reflexivity]. destruct (Z.eqb_spec blk 0) as [->|]; [|reflexivity].
  rewrite Z0; [ring|]. apply nthZ_In in En. apply (lay_In m D bodies Hs Hbo) in En. destruct En as [(_ & Hk2)|(En & _)]; [exact Hk2|discriminate].
Qed.

(** C49 as first stated fails for the initial pressure of the coupled solver:
    whatever pressure the user gives, the solver starts from zero. *)
Theorem coupled_initial_pressure_refuted : forall m D P types values name bodies t0 n0 U0 p0 O s0,
  ib_init m D P types values name bodies t0 n0 U0 p0 = Ok (O, s0) -> forall i, s_p s0 i = 0.
Proof.
  intros m D P types values name bodies t0 n0 U0 p0 O s0 H i. unfold ib_init in H. apply bind_ok_inv in H. destruct H as (bl & _ & H). apply bind_ok_inv in H. destruct H as (B & _ & H).
  apply bind_ok_inv in H. destruct H as (o & _ & H). injection H as <- <-. reflexivity.
Qed.
Print Assumptions coupled_initial_pressure_refuted.

(** One decoupled step in a uniform stream through a box around two fixed
    points, from rest, without viscosity: all three solves are exact, the force
    system needs no force, the projection then fills the box with the uniform
    stream, and the velocity at the points is that of the stream, not zero. *)
Lemma weighted_nil h i : weighted [] h i = 0.
Proof. unfold weighted. apply zsum_zero. intros j _. unfold nthZ. destruct (j <? 0)%Z; [reflexivity|]. now destruct (Z.to_nat j). Qed.
Lemma mvec_unit n x i : (0 <= i < n)%Z -> mvec n (mshift mzero 1) x i = x i.
Proof.
  intros Hi. unfold mvec, zsum. rewrite (sumR_single _ _ i); [|apply zrange_NoDup|now apply zrange_In|].
  - unfold mshift, mzero. rewrite Z.eqb_refl. ring.
  - intros l _ Hl. unfold mshift, mzero. replace (i =? l)%Z with false by lia. ring.
Qed.
Lemma velocity_id_range m D id f p : mfacts m D -> nthZ (packed_layout (m_dim m) D) id = Some (f, p) -> (0 <= id < n_velocity m)%Z.
Proof.
  intros F Hid. assert (DA : dec_all (m_dim m) D (m_n m)) by (intros g Hg; apply (mf_dec _ _ F); auto).
  assert (L : lenZ (packed_layout (m_dim m) D) = n_velocity m) by (apply packed_layout_len; auto; [intros; apply (mf_sizes _ _ F); auto|]; pose proof (mf_dim _ _ F); lia).
  pose proof (nthZ_Some_range _ _ _ Hid). lia.
Qed.
Definition stream (f : Z) : R := if (f =? 0)%Z then 1 else 0.
Definition euler_par : nspar := mkPar 1 0 1 [] 1 [] false.

Theorem decoupled_no_slip_lost_refuted : forall name K w, getKernel name = Ok (K, w) ->
  let m := un_mesh false false in let D := un_dec false false in let bodies := pair [4; 4] [13 / 4; 9 / 2] in let P := euler_par in
  let nf := n_forces m bodies in
  mesh_setup m D /\ bc_fits m (un_types false false) /\ bodies_ok m D bodies /\ uniform_around m unit_h w bodies /\ wide_enough m w /\ periodic_min m 2 /\
  exists O X x0 vs ps fs x2 rhs0 s1 b,
    d_init m D P (un_types false false) (fun f _ => stream f) name bodies 0 0 (fun _ => 0) (fun _ => 0) = Ok (O, X, x0) /\
    d_advance m D P O X nf (fun _ x => Ok x) (d_assembleRHSForces m X) vs ps fs x0 = Ok x2 /\
    rhs_velocity (n_pressure m) m D P O (fun _ x => Ok x) (begun P (x_ns x0)) = Ok (rhs0, s1) /\
    let rhs1 := vaxpy rhs0 1 (mvec nf (di_H X) (x_f x0)) in let U1 := vs (s_U (x_ns x0)) rhs1 in
    solves (n_velocity m) (o_A O) U1 rhs1 /\
    solves nf (di_EBNH X) (fs (x_df x0) (d_assembleRHSForces m X U1)) (d_assembleRHSForces m X U1) /\
    assembleRHSPoisson m D P O (vaxpy U1 1 (mvec nf (di_BNH X) (x_df x2))) (s_bc s1) = Ok b /\
    solves (n_pressure m) (o_DBNG O) (ps (s_dP (x_ns x0)) b) b /\
    forall i Y, located bodies 0 i Y -> sampled m D K unit_h 0 Y (s_U (x_ns x2)) = 1.
Proof.
  intros name K w HK m D bodies P nf.
  pose proof (un_setup false false) as Hs. pose proof (un_fits false false) as Hb. pose proof (setup_facts _ _ Hs) as F.
  pose proof (pair_ok false false [4; 4] [13 / 4; 9 / 2] eq_refl eq_refl) as Hbo. pose proof (un_uniform false false) as Hu.
  assert (W : (w <= 3)%Z) by (destruct (getKernel_cases _ _ _ HK) as [(_ & _ & -> & _)|(_ & _ & -> & _)]; lia).
  pose proof (un_min 2 ltac:(lia)) as Hmin.
  split; [exact Hs|]. split; [exact Hb|]. split; [exact Hbo|]. split; [exact (uniform_is_around m D unit_h w bodies Hs Hu)|]. split; [now apply un_wide|]. split; [exact Hmin|].
  set (q := fun i : Z => match nthZ (field_layout D 3) i with Some p => - IZR (pc p 0) | None => 0 end).
  set (vs := fun _ b : vec => b). set (ps := fun _ _ : vec => q). set (fs := fun _ _ : vec => (fun _ : Z => 0) : vec).
  destruct (decoupled_never_fails m D P (un_types false false) (fun f _ => stream f) name bodies K w (fun _ x => Ok x) vs ps fs 0 0 (fun _ => 0) (fun _ => 0) 1%nat Hs Hb Hbo HK)
    as (O & X & x0 & x2 & HI & H1).
  { cbn. lia. }
  { intros b i Y Hl. apply pair_located in Hl. destruct Hl as (_ & [(_ & ->)|(_ & ->)]); apply un_reach; auto; lra. }
  { apply pair_ranks. }
  { intros. eexists. reflexivity. }
  cbn [run_steps bind] in H1. fold nf in H1. rename H1 into Ha.
  destruct (d_advance_inv _ _ _ _ _ _ _ _ _ _ _ _ _ Ha) as (rhs0 & s1 & b & X1 & Xdf & X2 & XB1 & XdP & XU & _).
  exists O, X, x0, vs, ps, fs, x2, rhs0, s1, b. split; [exact HI|]. split; [exact Ha|]. split; [exact X1|]. cbv zeta.
  destruct (d_init_inv m D P (un_types false false) (fun f _ => stream f) Hs Hb _ _ _ _ _ _ _ _ _ HI) as (B0 & HB0 & EO & EX & Ex0).
  destruct (createOperators_inv _ _ _ _ _ EO) as (d & g & l & BN & Ed & Eg & El & EB & EOps).
  destruct (extra_inv m D P _ _ _ _ _ EX) as (E & H & BN' & EI & EB' & EXs).
  change (p_bn P) with 1%Z in EB. change (p_dt P) with 1 in EB. cbn in EB. injection EB as EB.
  assert (R0 : forall i, rhs0 i = 0).
  { intros i. destruct (rhs_value _ _ _ _ _ _ _ _ _ X1) as (c & _ & ->). rewrite Ex0. cbn [begun x_ns s_U s_p s_t s_ite s_dP s_conv s_diff s_bc].
    change (p_cexp P) with (@nil R). change (p_dexp P) with (@nil R). change (p_nu P) with 0. rewrite !weighted_nil. unfold mvec. rewrite !zsum_zero by (intros; ring). lra. }
  set (rhs1 := vaxpy rhs0 1 (mvec nf (di_H X) (x_f x0))) in *.
  assert (R1 : forall i, rhs1 i = 0).
  { intros i. unfold rhs1, vaxpy. rewrite R0, Ex0. cbn [x_f]. unfold mvec. rewrite zsum_zero by (intros; ring). lra. }
  assert (RF : forall i, d_assembleRHSForces m X rhs1 i = 0).
  { intros i. unfold d_assembleRHSForces, vscale, mvec. rewrite zsum_zero by (intros; rewrite R1; ring). ring. }
  unfold vs in *. fold rhs1 in Xdf, X2, XU. set (U2 := vaxpy rhs1 1 (mvec nf (di_BNH X) (x_df x2))) in *.
  assert (R2 : forall i, U2 i = 0).
  { intros i. unfold U2, vaxpy. rewrite R1, Xdf. unfold fs, mvec. rewrite zsum_zero by (intros; ring). lra. }
  (* the correction is minus the stream *)
  assert (G0 : forall id f p, nthZ (packed_layout (m_dim m) D) id = Some (f, p) -> mvec (n_pressure m) (o_BNG O) q id = - stream f).
  { intros id f p Hid. destruct (velocity_row m D id f p F Hid) as (Hf & Hp & _ & _).
    assert (Hidr : (0 <= id < n_velocity m)%Z) by (now apply (velocity_id_range m D id f p F)).
    assert (EoB : o_BNG O = mmul (n_velocity m) BN (entry g)) by (now rewrite EOps). rewrite EoB, mvec_mmul, <- EB, (mvec_unit _ _ id Hidr).
    destruct (gradient_lemma m D false q (fun p => - IZR (pc p 0)) F Hmin) as (g' & Eg' & Hg).
    { intros i p' Hi. unfold q. now rewrite Hi. }
    rewrite Eg in Eg'. injection Eg' as <-. specialize (Hg id f p Hid). change (mat_mult g (n_pressure m) q id) with (mvec (n_pressure m) (entry g) q id) in Hg. rewrite Hg.
    unfold gradient_at. unfold m in Hf. rewrite un_dim in Hf.
    assert (Hn : interior (m_n m 3) (shift p f 1)).
    { rewrite interior_pc in *. intros d0 Hd0. specialize (Hp d0 Hd0). rewrite ConvProof.pc_shift2 by lia.
      assert (f = 0 \/ f = 1)%Z as [->| ->] by lia; assert (d0 = 0 \/ d0 = 1 \/ d0 = 2)%Z as [->|[->| ->]] by lia;
      match type of Hp with (_ <= _ < ?a)%Z => let v := eval vm_compute in a in change a with v in Hp end;
      match goal with |- (_ <= _ < ?a)%Z => let v := eval vm_compute in a in change a with v end; cbn [Z.eqb Pos.eqb]; lia. }
    rewrite (proj2 (proj2 (interior_n_outside _ _ Hn))). rewrite ConvProof.pc_shift2 by lia.
    rewrite (uni_wid m D unit_h Hs Hu) by (unfold m; rewrite ?un_dim; try lia; rewrite interior_pc in Hp; specialize (Hp f ltac:(lia)); unfold m in Hp; lia).
    unfold unit_h, stream. assert (f = 0 \/ f = 1)%Z as [->| ->] by lia; cbn [Z.eqb Pos.eqb]; [rewrite plus_IZR|]; field. }
  assert (XU' : forall id f p, nthZ (packed_layout (m_dim m) D) id = Some (f, p) -> s_U (x_ns x2) id = stream f).
  { intros id f p Hid. rewrite XU, XdP. unfold vaxpy, ps. rewrite R2, (G0 id f p Hid). ring. }
  split.
  { intros i Hi. rewrite R1. unfold mvec. apply zsum_zero. intros k Hk. rewrite R1. ring. }
  split.
  { intros i Hi. rewrite RF. unfold mvec, fs. apply zsum_zero. intros k Hk. ring. }
  split; [exact X2|]. split.
  - intros i Hi. assert (EoD : o_D O = d) by (now rewrite EOps). assert (EoA : o_DBNG O = mmul (n_velocity m) (entry (op_log d)) (o_BNG O)) by (now rewrite EOps).
    unfold assembleRHSPoisson in X2. apply bind_ok_inv in X2. destruct X2 as (cc & Ec & X2). change (p_refp P) with false in X2. cbv iota in X2. injection X2 as <-. rewrite EoD in *.
    unfold vaxpy. rewrite EoA, mvec_mmul. unfold ps.
    rewrite Ex0 in XB1. cbn [x_ns s_U s_bc] in XB1. pose proof (bc_call_inv m D (un_types false false) (fun f _ => stream f) _ _ _ _ F Hb HB0 XB1) as HB1.
    pose proof (uniform_correction m D (un_types false false) (fun f _ => stream f) stream (s_U (x_ns x2)) (fun _ => 0) [OpEqs (fun _ => 0) (p_dt P)] B0 (s_bc s1) d cc Hs Hb Hmin) as UC.
    specialize (UC ltac:(intros f loc Hf Hl Hp; left; split; [unfold un_types; destruct (loc <? 2)%Z; reflexivity|reflexivity]) XU' HB0 HB1 Ed Ec i Hi).
    replace (mvec (n_velocity m) (entry (op_log d)) U2 i) with 0 by (unfold mvec; rewrite zsum_zero; [reflexivity|intros; rewrite R2; ring]).
    rewrite (mvec_ext _ _ (entry (op_log d)) _ (fun j => -1 * s_U (x_ns x2) j)) by (auto; intros j Hj; destruct (velocity_ids m D j F Hj) as (f & p & Hid); rewrite (G0 j f p Hid), (XU' j f p Hid); ring).
    unfold mvec in *. rewrite (zsum_ext _ (fun j => -1 * (entry (op_log d) i j * s_U (x_ns x2) j))) by (intros; ring). unfold zsum in *. rewrite sumR_scal. lra.
  - intros i Y Hl. destruct (located_row m D bodies 0 i 0 Y Hbo Hl ltac:(unfold m; rewrite un_dim; lia)) as (row & Hr & Er).
    rewrite <- (sampled_row m D unit_h B0 name bodies (un_types false false) (fun f _ => stream f) _ E H row 0 i 0 Y _ K w Hs (uniform_is_around m D unit_h w bodies Hs Hu) Hbo HK Hb HB0 (un_wide false false w W) EI Er Hl).
    rewrite (interpolation_exact m D unit_h B0 name bodies _ _ _ E H row 0 i 0 Y stream (fun _ _ => 0) (s_U (x_ns x2)) K w Hs (uniform_is_around m D unit_h w bodies Hs Hu) Hbo HK Hb HB0 (un_wide false false w W) EI Er Hl).
    + unfold affine. rewrite zsum_zero by (intros; ring). unfold stream. cbn [Z.eqb]. ring.
    + destruct (delta_case false false name (fun _ _ => 0) (fun _ => 0) (fun _ => 0) 0 K w HK) as (_ & _ & _ & _ & _ & Hc & _). exact (Hc 0%Z i Y Hl).
    + intros id f p Hid. rewrite (XU' id f p Hid). unfold affine. rewrite zsum_zero by (intros; ring). ring.
Qed.
Print Assumptions decoupled_no_slip_lost_refuted.
