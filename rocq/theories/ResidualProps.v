(** C63: what approximate linear solves leave of the constraints. *)
From Coq Require Import String ZifyBool.
From Verif Require Import Prelude ZSum RSum TypesModel GridModel GridSpec GridProof MeshProof IndexModel IndexSpec IndexProof
  BoundaryModel BoundarySpec BoundaryProof OperatorModel OperatorSpec OperatorProof BStateProof LapProof DivProof GradProof AdjProof SymProof
  MatModel BnModel BnSpec BnProof NSModel NSSpec NSProof NSPin NSTotal NSProps BodyModel BodySpec BodyProof
  DeltaModel DeltaSpec DeltaProof DeltaSum DeltaKernel DeltaProps ExampleSetup IbpmModel IbpmSpec IbpmProof IbpmStep IbpmDec IbpmMove IbpmProps MoveProps
  ResidualSpec ResidualProof ResidualIb.
Local Open Scope R_scope.

(** C63, no pinned pressure. s is the state after any number k of steps from
    any initial fields, s2 the state after one more step; both linear solvers
    are arbitrary functions. The net flux of the new velocity out of the cell
    with number id is entry id of the residual of the Poisson system of this
    step at the increment the solver returned. So the squared net fluxes of all
    cells add up to the squared norm of the residual. *)
Theorem divergence_is_residual : forall m D P types values t0 n0 U0 p0 ops s0 conv vs ps k s s2 rhs1 s1 b u,
  mesh_setup m D -> bc_fits m types -> periodic_min m 2 -> p_refp P = false ->
  ns_init m D P types values t0 n0 U0 p0 = Ok (ops, s0) -> ns_steps m D P ops conv vs ps k s0 = Ok s ->
  advance m D P ops conv vs ps s = Ok s2 ->
  assembleRHSVelocity m D P ops conv (mkNS (s_t s + p_dt P) (s_ite s + 1) (s_U s) (s_p s) (s_dP s) (s_conv s) (s_diff s) (s_bc s)) = Ok (rhs1, s1) ->
  assembleRHSPoisson m D P ops (vs (s_U s) rhs1) (s_bc s1) = Ok b ->
  extends m D (s_bc s2) (s_U s2) u ->
  let r := residual (n_pressure m) (o_DBNG ops) (ps (s_dP s) b) b in
  (forall id p, nthZ (field_layout D 3) id = Some p -> net_flux m false u p = r id) /\
  sumR (fun p => net_flux m false u p * net_flux m false u p) (cells m) = norm2 (n_pressure m) r.
Proof.
  intros m D P types values t0 n0 U0 p0 ops s0 conv vs ps k s s2 rhs1 s1 b u Hs Hb Hmin Href HI Hk Ha E1 E2 Hu r.
  destruct (step_flux _ _ _ _ _ _ _ _ _ _ _ _ _ _ _ _ _ _ _ _ _ Hs Hb Hmin HI Hk Ha E1 E2 Hu) as (c & _ & XdP & Eb & EA & Hf & _). rewrite Href in *.
  assert (K : forall id p, nthZ (field_layout D 3) id = Some p -> net_flux m false u p = r id).
  { intros id p Np. rewrite (Hf id p Np), XdP. unfold r, residual. rewrite EA. f_equal. exact (f_equal (fun v => v id) (eq_sym Eb)). }
  split; [exact K|]. unfold norm2. symmetry. apply (sum_cells m D); [exact (setup_facts _ _ Hs)|]. intros id p Np. now rewrite (K id p Np).
Qed.
Print Assumptions divergence_is_residual.

(** C63, pinned pressure. Away from cell 0 the net flux is the entry of the
    residual of the pinned system, corrected by the entry of the pinned
    equation; and if no velocity component has a Neumann condition on the
    boundary it is normal to, the fluxes of all the cells add up to the total
    of the right-hand side before pinning. So cell 0 carries what the other
    cells leave of it. *)
Theorem pinned_divergence_is_residual : forall m D P types values t0 n0 U0 p0 ops s0 conv vs ps k s s2 rhs1 s1 b u,
  mesh_setup m D -> bc_fits m types -> periodic_min m 2 -> p_refp P = true ->
  ns_init m D P types values t0 n0 U0 p0 = Ok (ops, s0) -> ns_steps m D P ops conv vs ps k s0 = Ok s ->
  advance m D P ops conv vs ps s = Ok s2 ->
  assembleRHSVelocity m D P ops conv (mkNS (s_t s + p_dt P) (s_ite s + 1) (s_U s) (s_p s) (s_dP s) (s_conv s) (s_diff s) (s_bc s)) = Ok (rhs1, s1) ->
  assembleRHSPoisson m D P ops (vs (s_U s) rhs1) (s_bc s1) = Ok b ->
  extends m D (s_bc s2) (s_U s2) u ->
  let r := residual (n_pressure m) (o_DBNG ops) (ps (s_dP s) b) b in
  (forall id p, id <> 0%Z -> nthZ (field_layout D 3) id = Some p -> net_flux m false u p = r id + unpinned m ops id 0%Z * r 0%Z) /\
  (no_normal_neumann m types -> exists c, correction_mult m (nranks D) (o_D ops) (s_bc s1) = Ok c /\
     sumR (net_flux m false u) (cells m) = total (n_pressure m) (vaxpy c 1 (mvec (n_velocity m) (entry (op_log (o_D ops))) (vs (s_U s) rhs1)))).
Proof.
  intros m D P types values t0 n0 U0 p0 ops s0 conv vs ps k s s2 rhs1 s1 b u Hs Hb Hmin Href HI Hk Ha E1 E2 Hu r.
  destruct (step_flux _ _ _ _ _ _ _ _ _ _ _ _ _ _ _ _ _ _ _ _ _ Hs Hb Hmin HI Hk Ha E1 E2 Hu) as (c & Ec & XdP & Eb & EA & Hf & Hz). rewrite Href in *.
  pose proof (setup_facts _ _ Hs) as F. split.
  - intros id p Hid Np. destruct (pressure_row m D id p F Np) as (Hp & Eid & _). pose proof (pidx_range m D p F Hp) as Hr. rewrite <- Eid in Hr.
    rewrite (Hf id p Np), pin_residual by lia. rewrite XdP. unfold r, residual. rewrite EA. f_equal; [|f_equal]; f_equal; [exact (f_equal (fun v => v id) (eq_sym Eb))|exact (f_equal (fun v => v 0%Z) (eq_sym Eb))].
  - intros Hn. exists c. split; [exact Ec|]. unfold total. rewrite <- (residual_total _ (unpinned m ops) (s_dP s2)); [|exact (Hz Hn)].
    symmetry. apply (sum_cells m D); [exact F|]. intros id p Np. symmetry. exact (Hf id p Np).
Qed.
Print Assumptions pinned_divergence_is_residual.

(** C63. The momentum equation of the step is satisfied up to the splitting
    error (C55) and the residual of the momentum solve. *)
Theorem momentum_residual : forall m D P types values t0 n0 U0 p0 ops s0 conv vs ps s s2 rhs1 s1,
  mesh_setup m D -> bc_fits m types -> p_dt P <> 0 ->
  ns_init m D P types values t0 n0 U0 p0 = Ok (ops, s0) ->
  advance m D P ops conv vs ps s = Ok s2 ->
  assembleRHSVelocity m D P ops conv (mkNS (s_t s + p_dt P) (s_ite s + 1) (s_U s) (s_p s) (s_dP s) (s_conv s) (s_diff s) (s_bc s)) = Ok (rhs1, s1) ->
  let nv := n_velocity m in let np := n_pressure m in let L := entry (op_log (o_L ops)) in let c := p_dimp P * p_nu P in
  forall i, (0 <= i < nv)%Z ->
    mvec nv (implicit_matrix mident (p_dt P) c L) (s_U s2) i + mvec np (o_G ops) (s_dP s2) i
    = rhs1 i + mvec nv (mpow nv (mscale (c * p_dt P) L) (Z.to_nat (p_bn P))) (mvec np (o_G ops) (s_dP s2)) i
      - residual nv (o_A ops) (vs (s_U s) rhs1) rhs1 i.
Proof. exact step_momentum. Qed.
Print Assumptions momentum_residual.

(** C63, coupled immersed-boundary solver. The entries of the residual of the
    combined system are the net fluxes of the cells and the velocities
    interpolated at the body points; the squares add up accordingly. *)
Theorem coupled_residual : forall m D P types values name bodies t0 n0 U0 p0 O s0 conv vs ps k s s2 rhs1 s1 b u,
  mesh_setup m D -> bc_fits m types -> bodies_ok m D bodies -> periodic_min m 2 -> p_refp P = false ->
  ib_init m D P types values name bodies t0 n0 U0 p0 = Ok (O, s0) -> run_steps (ib_advance m D P O conv vs ps) k s0 = Ok s ->
  ib_advance m D P O conv vs ps s = Ok s2 ->
  rhs_velocity (ib_n O) m D P (ib_ns O) conv (begun P s) = Ok (rhs1, s1) ->
  ib_assembleRHSPoisson m D P O (vs (s_U s) rhs1) (s_bc s1) = Ok b ->
  extends m D (s_bc s2) (s_U s2) u ->
  exists B E H, boundary_after m D types values [OpICs U0] B /\ ib_operators m D B name bodies = Ok (E, H) /\
    let r := residual (ib_n O) (o_DBNG (ib_ns O)) (ps (s_dP s) b) b in
    (forall i id p, nthZ (ib_lay O) i = Some (0%Z, id) -> nthZ (field_layout D 3) id = Some p -> net_flux m false u p = r i) /\
    (forall i row, nthZ (ib_lay O) i = Some (1%Z, row) -> mvec (n_velocity m) E (s_U s2) row = r i) /\
    sumR (fun p => net_flux m false u p * net_flux m false u p) (cells m) + norm2 (n_forces m bodies) (mvec (n_velocity m) E (s_U s2)) = norm2 (ib_n O) r.
Proof. exact coupled_residual_lemma. Qed.
Print Assumptions coupled_residual.

(** C63, decoupled solver. The net fluxes are the residual of the Poisson
    solve; on a mesh that is uniform around the bodies the velocity sampled at any point of any body is
    the sampled velocity correction of the projection and the residual of the
    forces solve, both with the opposite sign. *)
Theorem decoupled_residual : forall m D P types values name bodies t0 n0 U0 p0 O X x0 conv vs ps fs k x x2 rhs0 s1 b u,
  mesh_setup m D -> bc_fits m types -> periodic_min m 2 -> p_refp P = false ->
  d_init m D P types values name bodies t0 n0 U0 p0 = Ok (O, X, x0) ->
  let nf := n_forces m bodies in
  let step := d_advance m D P O X nf conv (d_assembleRHSForces m X) vs ps fs in
  run_steps step k x0 = Ok x -> step x = Ok x2 ->
  rhs_velocity (n_pressure m) m D P O conv (begun P (x_ns x)) = Ok (rhs0, s1) ->
  let U1 := vs (s_U (x_ns x)) (vaxpy rhs0 1 (mvec nf (di_H X) (x_f x))) in
  let U2 := vaxpy U1 1 (mvec nf (di_BNH X) (x_df x2)) in
  assembleRHSPoisson m D P O U2 (s_bc s1) = Ok b ->
  extends m D (s_bc (x_ns x2)) (s_U (x_ns x2)) u ->
  (forall id p, nthZ (field_layout D 3) id = Some p -> net_flux m false u p = residual (n_pressure m) (o_DBNG O) (ps (s_dP (x_ns x)) b) b id) /\
  let bf := d_assembleRHSForces m X U1 in
  forall h K w bd i c Y, bodies_ok m D bodies -> uniform_around m h w bodies -> getKernel name = Ok (K, w) -> wide_enough m w -> located bodies bd i Y -> (0 <= c < m_dim m)%Z ->
    exists row, nthZ (body_layout (nranks D) (m_dim m) (map fst bodies)) row = Some (bd, i, c) /\
    sampled m D K h c Y (s_U (x_ns x2))
    = - sampled m D K h c Y (mvec (n_pressure m) (o_BNG O) (s_dP (x_ns x2))) - residual nf (di_EBNH X) (fs (x_df x) bf) bf row.
Proof.
  intros m D P types values name bodies t0 n0 U0 p0 O X x0 conv vs ps fs k x x2 rhs0 s1 b u Hs Hb Hmin Href HI nf step Hk Ha E1 U1 U2 E2 Hu.
  destruct (d_init_inv m D P types values Hs Hb _ _ _ _ _ _ _ _ _ HI) as (B0 & HB0 & EO & EX & _).
  destruct (d_steps_boundary m D P types values Hs Hb _ _ _ _ _ _ _ _ _ _ _ _ _ _ _ _ _ HI Hk) as ((h1 & Hh) & _). split.
  - exact (decoupled_flux m D P types values O B0 U0 h1 X nf conv (d_assembleRHSForces m X) vs ps fs x x2 rhs0 s1 b u Hs Hb Hmin Href EO HB0 Hh Ha E1 E2 Hu).
  - intros bf h K w bd i c Y Hbo Hun HK Hw Hl Hc.
    destruct (located_row m D bodies bd i c Y Hbo Hl Hc) as (row & Hr & Er). exists row. split; [exact Er|].
    pose proof (slip_residual m D P O B0 name bodies X conv (d_assembleRHSForces m X) (fun _ => 0) vs ps fs x x2 rhs0 s1 EX) as S.
    specialize (S ltac:(intros U j Hj; unfold d_assembleRHSForces, vscale; lra) Ha E1 row Hr). cbv zeta in S.
    destruct (extra_inv m D P _ _ _ _ _ EX) as (E & H & BN & EI & EB & EXX).
    assert (EE : di_E X = E) by (now rewrite EXX). rewrite EE in S.
    rewrite !(sampled_row m D h B0 name bodies types values _ E H row bd i c Y _ K w Hs Hun Hbo HK Hb HB0 Hw EI Er Hl) in S. unfold bf, U1, nf. lra.
Qed.
Print Assumptions decoupled_residual.

(** C63, moving bodies: the same with the prescribed velocity at the new time
    at the positions of the new time. *)
Theorem moving_residual : forall m D P types values name bodies mo pos vel t0 n0 U0 p0 O s0 conv vs ps fsolve k s s2 rhs0 s1 b u,
  mesh_setup m D -> bc_fits m types -> bodies_ok m D bodies -> prescribed m D bodies mo pos vel -> periodic_min m 2 -> p_refp P = false ->
  r_init m D P types values name bodies t0 n0 U0 p0 = Ok (O, s0) ->
  run_steps (r_advance m D P O name mo conv vs ps fsolve) k s0 = Ok s -> r_advance m D P O name mo conv vs ps fsolve s = Ok s2 ->
  let x := r_x s in let X := r_ops s2 in let nf := n_forces m bodies in
  rhs_velocity (n_pressure m) m D P O conv (begun P (x_ns x)) = Ok (rhs0, s1) ->
  let U1 := vs (s_U (x_ns x)) (vaxpy rhs0 1 (mvec nf (di_H X) (x_f x))) in
  let U2 := vaxpy U1 1 (mvec nf (di_BNH X) (x_df (r_x s2))) in
  assembleRHSPoisson m D P O U2 (s_bc s1) = Ok b ->
  extends m D (s_bc (x_ns (r_x s2))) (s_U (x_ns (r_x s2))) u ->
  (forall id p, nthZ (field_layout D 3) id = Some p -> net_flux m false u p = residual (n_pressure m) (o_DBNG O) (ps (s_dP (x_ns x)) b) b id) /\
  let bf := r_assembleRHSForces m X (r_UB s2) U1 in
  let t := t0 + INR (S k) * p_dt P in
  forall h K w bd c i Y j, uniform_around m h w (bodies_at bodies (pos t)) -> getKernel name = Ok (K, w) -> wide_enough m w ->
    nthZ (pos t) bd = Some c -> nthZ c i = Some Y -> (0 <= j < m_dim m)%Z ->
    exists row, nthZ (body_layout (nranks D) (m_dim m) (map fst bodies)) row = Some (bd, i, j) /\
    sampled m D K h j Y (s_U (x_ns (r_x s2)))
    = vel t bd i j - sampled m D K h j Y (mvec (n_pressure m) (o_BNG O) (s_dP (x_ns (r_x s2)))) - residual nf (di_EBNH X) (fsolve (r_solver s2) (x_df x) bf) bf row.
Proof.
  intros m D P types values name bodies mo pos vel t0 n0 U0 p0 O s0 conv vs ps fsolve k s s2 rhs0 s1 b u Hs Hb Hbo Hmo Hmin Href HI Hk Ha x X nf E1 U1 U2 E2 Hu.
  assert (Hk2 : run_steps (r_advance m D P O name mo conv vs ps fsolve) (S k) s0 = Ok s2) by (cbn [run_steps]; rewrite Hk; exact Ha).
  destruct (r_steps m D P types values Hs Hb name bodies mo pos vel Hmo conv vs ps fsolve _ _ _ _ _ _ _ _ HI Hk) as (Hsh & (h1 & Hh1) & _).
  destruct (r_advance_inv m D P name bodies mo pos vel Hmo conv vs ps fsolve O s s2 Hsh Ha) as (EB0 & _ & _ & _ & Hd0). split.
  - destruct (r_init_inv m D P types values Hs Hb name bodies _ _ _ _ _ _ HI) as (B0 & X0 & x0 & HB0 & EO & _).
    rewrite EB0, (forces_at m bodies _ (len_pos m D bodies mo pos vel Hmo _)) in Hd0.
    exact (decoupled_flux m D P types values O B0 U0 h1 X nf conv (r_assembleRHSForces m X (r_UB s2)) vs ps (fsolve (r_solver s2)) x (r_x s2) rhs0 s1 b u Hs Hb Hmin Href EO HB0 Hh1 Hd0 E1 E2 Hu).
  - intros bf t h K w bd c i Y j Hun HK Hw Ec EY Hj.
    destruct (moving_state m D P types values Hs Hb name bodies mo pos vel Hmo conv vs ps fsolve _ _ _ _ _ _ _ _ HI Hk2) as (_ & _ & EB & HV & (B0 & HB0 & EX) & ES).
    fold t in EB, HV, EX. pose proof (len_pos m D bodies mo pos vel Hmo t) as L. pose proof (shape_pos m D bodies mo pos vel Hmo t) as Hsp.
    pose proof (ok_at m D bodies (pos t) Hbo Hsp) as Hbo'. rewrite EB in Hd0.
    assert (Hl : located (bodies_at bodies (pos t)) bd i Y) by (apply (located_at bodies (pos t) bd i Y L); eauto).
    destruct (located_row m D (bodies_at bodies (pos t)) bd i j Y Hbo' Hl Hj) as (row & Hr & Er).
    pose proof (slip_residual m D P O B0 name (bodies_at bodies (pos t)) X conv (r_assembleRHSForces m X (r_UB s2)) (r_UB s2) vs ps (fsolve (r_solver s2)) x (r_x s2) rhs0 s1 EX) as S.
    specialize (S ltac:(intros U q Hq; unfold r_assembleRHSForces, vscale; lra) Hd0 E1).
    rewrite (forces_at m bodies (pos t) L) in S, Hr. specialize (S row Hr). cbv zeta in S. exists row. split; [rewrite at_fst in Er by exact L; exact Er|].
    destruct (extra_inv m D P _ _ _ _ _ EX) as (E & H & BN & EI & EBn & EXs). assert (EE : di_E X = E) by (unfold X; rewrite EXs; reflexivity). rewrite EE in S.
    rewrite !(sampled_row m D h B0 name (bodies_at bodies (pos t)) types values _ E H row bd i j Y _ K w Hs Hun Hbo' HK Hb HB0 Hw EI Er Hl) in S.
    rewrite at_fst in Er by exact L. rewrite (HV row bd i j Er) in S. unfold bf, U1, nf. lra.
Qed.
Print Assumptions moving_residual.

(** Non-vacuity: on the example mesh with walls, whatever the linear solvers
    return and with or without a pinned pressure, after any number of steps. *)
Example residual_case : forall refp vs ps U0 p0 k, let m := un_mesh false false in let D := un_dec false false in let P := ex_par refp in
  exists ops s0 s s2 rhs1 s1 b u, mesh_setup m D /\ bc_fits m (un_types false false) /\ periodic_min m 2 /\ p_refp P = refp /\
    no_normal_neumann m (un_types false false) /\
    ns_init m D P (un_types false false) (fun _ _ => 0) 0 0 U0 p0 = Ok (ops, s0) /\
    ns_steps m D P ops (fun _ x => Ok x) vs ps k s0 = Ok s /\
    advance m D P ops (fun _ x => Ok x) vs ps s = Ok s2 /\
    assembleRHSVelocity m D P ops (fun _ x => Ok x) (mkNS (s_t s + p_dt P) (s_ite s + 1) (s_U s) (s_p s) (s_dP s) (s_conv s) (s_diff s) (s_bc s)) = Ok (rhs1, s1) /\
    assembleRHSPoisson m D P ops (vs (s_U s) rhs1) (s_bc s1) = Ok b /\ extends m D (s_bc s2) (s_U s2) u.
Proof.
  intros refp vs ps U0 p0 k m D P. pose proof (un_setup false false) as Hs. pose proof (un_fits false false) as Hb. pose proof (setup_facts _ _ Hs) as F.
  destruct (init_total m D P (un_types false false) (fun _ _ => 0) 0 0 U0 p0 F Hb ltac:(cbn; lia)) as (ops & s0 & HI).
  destruct (steps_total m D P (un_types false false) (fun _ _ => 0) F Hb (fun _ x => Ok x) vs ps 0 0 U0 p0 ops s0 (S k) HI) as (s2 & Hs2); [intros; eexists; reflexivity|].
  pose proof Hs2 as Hs2'. cbn [ns_steps] in Hs2'. apply bind_ok_inv in Hs2'. destruct Hs2' as (s & Hk & Ha).
  destruct (advance_inv _ _ _ _ _ _ _ _ _ Ha) as (rhs1 & s1 & b & X1 & X2 & _).
  destruct (steps_boundary _ _ _ _ _ _ _ _ _ _ _ _ _ _ _ _ F Hb HI Hs2) as (h2 & Hh2).
  destruct (extends_exists m D (un_types false false) (fun _ _ => 0) _ _ (s_U s2) F Hb Hh2) as [u Hu].
  exists ops, s0, s, s2, rhs1, s1, b, u. split; [exact Hs|]. split; [exact Hb|]. split; [apply un_min; lia|]. split; [reflexivity|].
  split; [intros f Hf; unfold un_types; split; destruct (_ <? 2)%Z; discriminate|]. repeat (split; [assumption|]). exact Hu.
Qed.
