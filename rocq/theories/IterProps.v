(** C87: the iterations file. *)
From Coq Require Import String ZifyBool.
From Verif Require Import Prelude ZSum RSum TypesModel GridModel GridSpec GridProof MeshProof IndexModel IndexSpec IndexProof BoundaryModel BoundarySpec BoundaryProof
  OperatorModel OperatorSpec OperatorProof AdjProof MatModel BnModel
  NSModel NSSpec NSProof NSTotal NSProps NameModel DriverModel DriverSpec DriverProof BodyModel BodySpec DeltaModel DeltaSpec DeltaProps ExampleSetup ConvModel ConvProps DecConv SimProps IbpmModel IbpmSpec IbpmProof IbpmStep IbpmDec IbOutModel IbOutDrive LinModel LinSpec LinProof
  BodyProof IbpmMove IbpmProps MoveProps DeltaProof DeltaSum DeltaProof DeltaKernel BStateProof ResidualProof ResidualIb RestartProof ResidualSpec ResidualProps IterModel IterSpec IterProof.
Local Open Scope R_scope.

(** C87, Navier-Stokes solver: any configuration, any solvers, any initial
    state. *)
Theorem iterations_file_tells_solves : forall m D P ops conv kv kp conf fuel s0 r lines,
  s_ite s0 = c_nstart conf -> iterations_file fuel s_ite conf (ns_advance_rep m D P ops conv kv kp) ns_line s0 = (r, lines) ->
  describes (advance m D P ops conv (answer kv) (answer kp)) (ns_advance_ksp m D P ops conv (bare kv) (bare kp))
    (fun s _ reps => exists rv rp, reps = [rv; rp] /\ ns_step_reports m D P ops conv kv kp s rv rp) conf s0 r lines.
Proof.
  intros m D P ops conv kv kp conf fuel s0 r lines Hi H. eapply file_describes; [| |exact Hi|exact H].
  - intros s K s2 K2 E. destruct (rep_step_ok _ _ _ _ _ _ _ _ _ ltac:(intros ? ? ?; apply rhsvel_keeps) _ _ _ _ E) as (A & B & rhs1 & s1 & b & E1 & E2 & E3 & E4).
    split; [exact A|]. split; [exact B|]. split; [reflexivity|]. exists (k_v K2), (k_p K2). split; [reflexivity|]. exists rhs1, s1, b. auto.
  - intros s K e E. exact (rep_step_err _ _ _ _ _ _ _ _ _ _ _ _ E).
Qed.
Print Assumptions iterations_file_tells_solves.

(** C87, coupled immersed-boundary solver. *)
Theorem coupled_iterations_file : forall m D P IO conv kv kp conf fuel s0 r lines,
  s_ite s0 = c_nstart conf -> iterations_file fuel s_ite conf (ib_advance_rep m D P IO conv kv kp) ns_line s0 = (r, lines) ->
  describes (ib_advance m D P IO conv (answer kv) (answer kp)) (ib_advance_ksp m D P IO conv (bare kv) (bare kp))
    (fun s _ reps => exists rv rp, reps = [rv; rp] /\ ib_step_reports m D P IO conv kv kp s rv rp) conf s0 r lines.
Proof.
  intros m D P IO conv kv kp conf fuel s0 r lines Hi H. eapply file_describes; [| |exact Hi|exact H].
  - intros s K s2 K2 E. destruct (rep_step_ok _ _ _ _ _ _ _ _ _ ltac:(intros ? ? ?; apply rhsvel_keeps) _ _ _ _ E) as (A & B & rhs1 & s1 & b & E1 & E2 & E3 & E4).
    split; [exact A|]. split; [exact B|]. split; [reflexivity|]. exists (k_v K2), (k_p K2). split; [reflexivity|]. exists rhs1, s1, b. auto.
  - intros s K e E. exact (rep_step_err _ _ _ _ _ _ _ _ _ _ _ _ E).
Qed.
Print Assumptions coupled_iterations_file.

(** C87, decoupled solver: three solves per step, the forces last on the line
    although they are solved before the pressure. *)
Theorem decoupled_iterations_file : forall m D P ops X nf conv kv kp kf conf fuel x0 r lines,
  s_ite (x_ns x0) = c_nstart conf ->
  iterations_file fuel (fun x => s_ite (x_ns x)) conf (d_advance_rep m D P ops X nf conv (d_assembleRHSForces m X) kv kp kf) d_line x0 = (r, lines) ->
  describes (d_advance m D P ops X nf conv (d_assembleRHSForces m X) (answer kv) (answer kp) (answer kf))
    (d_advance_ksp m D P ops X nf conv (d_assembleRHSForces m X) (bare kv) (bare kp) (bare kf))
    (fun x _ reps => exists rv rp rf, reps = [rv; rp; rf] /\ d_step_reports m D P ops X nf conv (d_assembleRHSForces m X) kv kp kf x rv rp rf) conf x0 r lines.
Proof.
  intros m D P ops X nf conv kv kp kf conf fuel x0 r lines Hi H. eapply (file_describes _ (fun x => s_ite (x_ns x))); [| |exact Hi|exact H].
  - intros s K s2 K2 E. destruct (d_rep_step_ok _ _ _ _ _ _ _ _ _ _ _ _ _ _ _ E) as (A & B & C).
    split; [exact A|]. split; [exact B|]. split; [reflexivity|]. exists (k_v K2), (k_p K2), (k_f K2). split; [reflexivity|exact C].
  - intros s K e E. exact (d_rep_step_err _ _ _ _ _ _ _ _ _ _ _ _ _ _ E).
Qed.
Print Assumptions decoupled_iterations_file.

(** C87, moving bodies: the operators and the matrix of the forces solver are
    those of the new positions. *)
Theorem moving_iterations_file : forall m D P ops name mo conv kv kp kf conf fuel s0 r lines,
  s_ite (x_ns (r_x s0)) = c_nstart conf ->
  iterations_file fuel (fun s => s_ite (x_ns (r_x s))) conf (r_advance_rep m D P ops name mo conv kv kp kf) d_line s0 = (r, lines) ->
  describes (r_advance m D P ops name mo conv (answer kv) (answer kp) (fun A => answer (kf A)))
    (r_advance_ksp m D P ops name mo conv (bare kv) (bare kp) (fun A => bare (kf A)))
    (fun s s2 reps => exists rv rp rf, reps = [rv; rp; rf] /\
       d_step_reports m D P ops (r_ops s2) (n_forces m (r_bodies s2)) conv (r_assembleRHSForces m (r_ops s2) (r_UB s2)) kv kp (kf (di_EBNH (r_ops s2))) (r_x s) rv rp rf) conf s0 r lines.
Proof.
  intros m D P ops name mo conv kv kp kf conf fuel s0 r lines Hi H. eapply (file_describes _ (fun s => s_ite (x_ns (r_x s)))); [| |exact Hi|exact H].
  - intros s K s2 K2 E. destruct (r_rep_step_ok _ _ _ _ _ _ _ _ _ _ _ _ _ _ E) as (A & B & C).
    split; [exact A|]. split; [exact B|]. split; [reflexivity|]. exists (k_v K2), (k_p K2), (k_f K2). split; [reflexivity|exact C].
  - intros s K e E. exact (r_rep_step_err _ _ _ _ _ _ _ _ _ _ _ _ _ E).
Qed.
Print Assumptions moving_iterations_file.

(** C87. What the residual of the Poisson solver in the file says about the
    flow, without a pinned pressure: it is the root of the sum of the squared
    net fluxes out of all the cells after that step, and no cell has a larger
    net flux. *)
Theorem reported_residual_bounds_divergence : forall m D P types values t0 U0 p0 ops s0 conv kv kp conf fuel r lines j l,
  mesh_setup m D -> bc_fits m types -> periodic_min m 2 -> p_refp P = false ->
  ns_init m D P types values t0 (c_nstart conf) U0 p0 = Ok (ops, s0) ->
  reports_residual (n_pressure m) (o_DBNG ops) kp ->
  iterations_file fuel s_ite conf (ns_advance_rep m D P ops conv kv kp) ns_line s0 = (r, lines) ->
  nth_error lines j = Some l ->
  exists iters_v res_v iters_p res_p s2, l_reports l = [(iters_v, res_v); (iters_p, res_p)] /\
    ns_steps m D P ops conv (answer kv) (answer kp) (S j) s0 = Ok s2 /\
    forall u, extends m D (s_bc s2) (s_U s2) u ->
      sumR (fun p => net_flux m false u p * net_flux m false u p) (cells m) = res_p * res_p /\
      forall p, In p (cells m) -> Rabs (net_flux m false u p) <= res_p.
Proof.
  intros m D P types values t0 U0 p0 ops s0 conv kv kp conf fuel r lines j l Hs Hb Hmin Href HI Hh H Hj.
  destruct (ns_init_step _ _ _ _ _ _ _ 0%Z _ _ _ _ HI) as [Hi _].
  destruct (iterations_file_tells_solves _ _ _ _ _ _ _ _ _ _ _ _ Hi H) as [A _].
  destruct (A _ _ Hj) as (s & s2 & Hk & Ha & _ & ([iv rv] & [ip rp] & El & rhs1 & s1 & b & E1 & E2 & _ & E4)).
  rewrite run_steps_ns in Hk. exists iv, rv, ip, rp, s2. split; [exact El|]. split; [cbn [ns_steps]; rewrite Hk; exact Ha|].
  intros u Hu. destruct (divergence_is_residual _ _ _ _ _ _ _ _ _ _ _ _ _ _ _ _ _ _ _ _ _ Hs Hb Hmin Href HI Hk Ha E1 E2 Hu) as [F1 F2].
  assert (Er : rp = sqrt (norm2 (n_pressure m) (residual (n_pressure m) (o_DBNG ops) (answer kp (s_dP s) b) b))) by (rewrite <- Hh, <- E4; reflexivity).
  assert (S2 : sumR (fun p => net_flux m false u p * net_flux m false u p) (cells m) = rp * rp).
  { rewrite F2, Er. symmetry. apply sqrt_sqrt. apply sumR_nonneg. intros i _. apply Rle_0_sqr. }
  split; [exact S2|]. intros p Hp. apply (squares_bound (net_flux m false u) (cells m)); [rewrite Er; apply sqrt_pos|exact S2|exact Hp].
Qed.
Print Assumptions reported_residual_bounds_divergence.

(** C87, coupled solver: the residual of the combined solve is the root of the
    sum of the squared net fluxes of all the cells and the squared velocities
    interpolated at all the body points, after that step. *)
Theorem coupled_reported_residual : forall m D P types values name bodies t0 U0 p0 IO s0 conv kv kp conf fuel r lines j l,
  mesh_setup m D -> bc_fits m types -> bodies_ok m D bodies -> periodic_min m 2 -> p_refp P = false ->
  ib_init m D P types values name bodies t0 (c_nstart conf) U0 p0 = Ok (IO, s0) ->
  reports_residual (ib_n IO) (o_DBNG (ib_ns IO)) kp ->
  iterations_file fuel s_ite conf (ib_advance_rep m D P IO conv kv kp) ns_line s0 = (r, lines) ->
  nth_error lines j = Some l ->
  exists iters_v res_v iters_p res_p s2, l_reports l = [(iters_v, res_v); (iters_p, res_p)] /\
    run_steps (ib_advance m D P IO conv (answer kv) (answer kp)) (S j) s0 = Ok s2 /\
    forall u, extends m D (s_bc s2) (s_U s2) u ->
      exists B E H, boundary_after m D types values [OpICs U0] B /\ ib_operators m D B name bodies = Ok (E, H) /\
      sumR (fun p => net_flux m false u p * net_flux m false u p) (cells m) + norm2 (n_forces m bodies) (mvec (n_velocity m) E (s_U s2)) = res_p * res_p.
Proof.
  intros m D P types values name bodies t0 U0 p0 IO s0 conv kv kp conf fuel r lines j l Hs Hb Hbo Hmin Href HI Hh H Hj.
  assert (Hi : s_ite s0 = c_nstart conf) by (unfold ib_init in HI; do 3 (apply bind_ok_inv in HI; destruct HI as (? & _ & HI)); injection HI as _ <-; reflexivity).
  destruct (coupled_iterations_file _ _ _ _ _ _ _ _ _ _ _ _ Hi H) as [A _].
  destruct (A _ _ Hj) as (s & s2 & Hk & Ha & _ & ([iv rv] & [ip rp] & El & rhs1 & s1 & b & E1 & E2 & _ & E4)).
  assert (Er : rp = sqrt (norm2 (ib_n IO) (residual (ib_n IO) (o_DBNG (ib_ns IO)) (answer kp (s_dP s) b) b))) by (rewrite <- Hh, <- E4; reflexivity).
  exists iv, rv, ip, rp, s2. split; [exact El|]. split; [cbn [run_steps]; rewrite Hk; exact Ha|].
  intros u Hu. destruct (coupled_residual _ _ _ _ _ _ _ _ _ _ _ _ _ _ _ _ _ _ _ _ _ _ u Hs Hb Hbo Hmin Href HI Hk Ha E1 E2 Hu) as (B & E & HH & HB & EI & _ & _ & Hsum).
  exists B, E, HH. split; [exact HB|]. split; [exact EI|]. rewrite Hsum, Er. symmetry. apply sqrt_sqrt. apply sumR_nonneg. intros i _. apply Rle_0_sqr.
Qed.
Print Assumptions coupled_reported_residual.

(** C87, decoupled solver: as for the Navier-Stokes solver. *)
Theorem decoupled_reported_residual : forall m D P types values name bodies t0 U0 p0 ops X x0 conv kv kp kf conf fuel r lines j l,
  mesh_setup m D -> bc_fits m types -> periodic_min m 2 -> p_refp P = false ->
  d_init m D P types values name bodies t0 (c_nstart conf) U0 p0 = Ok (ops, X, x0) ->
  reports_residual (n_pressure m) (o_DBNG ops) kp ->
  iterations_file fuel (fun x => s_ite (x_ns x)) conf (d_advance_rep m D P ops X (n_forces m bodies) conv (d_assembleRHSForces m X) kv kp kf) d_line x0 = (r, lines) ->
  nth_error lines j = Some l ->
  exists iters_v res_v iters_p res_p iters_f res_f x2, l_reports l = [(iters_v, res_v); (iters_p, res_p); (iters_f, res_f)] /\
    run_steps (d_advance m D P ops X (n_forces m bodies) conv (d_assembleRHSForces m X) (answer kv) (answer kp) (answer kf)) (S j) x0 = Ok x2 /\
    forall u, extends m D (s_bc (x_ns x2)) (s_U (x_ns x2)) u ->
      sumR (fun p => net_flux m false u p * net_flux m false u p) (cells m) = res_p * res_p /\
      forall p, In p (cells m) -> Rabs (net_flux m false u p) <= res_p.
Proof.
  intros m D P types values name bodies t0 U0 p0 ops X x0 conv kv kp kf conf fuel r lines j l Hs Hb Hmin Href HI Hh H Hj.
  destruct (d_init_inv m D P types values Hs Hb _ _ _ _ _ _ _ _ _ HI) as (B0 & _ & _ & _ & Ex0).
  assert (Hi : s_ite (x_ns x0) = c_nstart conf) by (rewrite Ex0; reflexivity).
  destruct (decoupled_iterations_file _ _ _ _ _ _ _ _ _ _ _ _ _ _ _ Hi H) as [A _].
  destruct (A _ _ Hj) as (x & x2 & Hk & Ha & _ & ([iv rv] & [ip rp] & [jf rf] & El & rhs1 & s1 & b & E1 & E2 & _ & E4 & _)).
  assert (Er : rp = sqrt (norm2 (n_pressure m) (residual (n_pressure m) (o_DBNG ops) (answer kp (s_dP (x_ns x)) b) b))) by (rewrite <- Hh, <- E4; reflexivity).
  exists iv, rv, ip, rp, jf, rf, x2. split; [exact El|]. split; [cbn [run_steps]; rewrite Hk; exact Ha|].
  unfold d_assembleRHSVelocity in E1. apply bind_ok_inv in E1. destruct E1 as ([rhs0 s1'] & E1 & E0). injection E0 as <- <-.
  assert (Edf : x_df x2 = answer kf (x_df x) (d_assembleRHSForces m X (answer kv (s_U (x_ns x)) (vaxpy rhs0 1 (mvec (n_forces m bodies) (di_H X) (x_f x)))))).
  { pose proof Ha as Hd. unfold d_advance, d_assembleRHSVelocity in Hd. cbv zeta in Hd. fold (begun P (x_ns x)) in Hd. rewrite E1 in Hd. cbn [bind] in Hd.
    destruct (rhsvel_keeps _ _ _ _ _ _ _ _ _ E1) as (_ & EU & _). rewrite EU in Hd. cbn [begun s_U] in Hd.
    do 2 (apply bind_ok_inv in Hd; destruct Hd as (? & _ & Hd)). injection Hd as <-. reflexivity. }
  intros u Hu.
  destruct (decoupled_residual _ _ _ _ _ _ _ _ _ _ _ _ _ _ _ _ _ _ _ _ _ rhs0 s1' b u Hs Hb Hmin Href HI Hk Ha E1 ltac:(rewrite Edf; exact E2) Hu) as [F1 _].
  assert (S2 : sumR (fun p => net_flux m false u p * net_flux m false u p) (cells m) = rp * rp).
  { rewrite Er. rewrite sqrt_sqrt by (apply sumR_nonneg; intros i _; apply Rle_0_sqr). symmetry. apply (sum_cells m D); [exact (setup_facts _ _ Hs)|].
    intros id p Np. now rewrite (F1 id p Np). }
  split; [exact S2|]. intros p Hp. apply (squares_bound (net_flux m false u) (cells m)); [rewrite Er; apply sqrt_pos|exact S2|exact Hp].
Qed.
Print Assumptions decoupled_reported_residual.

(** The third residual of the line is that of the forces. It bounds, at every
    Lagrangian point of a body in a uniform region, what the velocity sampled
    there by the regularised delta function misses, apart from the pressure
    correction made after the forces were computed. *)
Theorem decoupled_reported_slip : forall m D P types values name bodies t0 U0 p0 ops X x0 conv kv kp kf conf fuel r lines j l h K w bd i d Y,
  mesh_setup m D -> bc_fits m types ->
  d_init m D P types values name bodies t0 (c_nstart conf) U0 p0 = Ok (ops, X, x0) ->
  reports_residual (n_forces m bodies) (di_EBNH X) kf ->
  iterations_file fuel (fun x => s_ite (x_ns x)) conf (d_advance_rep m D P ops X (n_forces m bodies) conv (d_assembleRHSForces m X) kv kp kf) d_line x0 = (r, lines) ->
  nth_error lines j = Some l ->
  bodies_ok m D bodies -> uniform_around m h w bodies -> getKernel name = Ok (K, w) -> wide_enough m w -> located bodies bd i Y -> (0 <= d < m_dim m)%Z ->
  exists iters_v res_v iters_p res_p iters_f res_f x2, l_reports l = [(iters_v, res_v); (iters_p, res_p); (iters_f, res_f)] /\
    run_steps (d_advance m D P ops X (n_forces m bodies) conv (d_assembleRHSForces m X) (answer kv) (answer kp) (answer kf)) (S j) x0 = Ok x2 /\
    Rabs (sampled m D K h d Y (s_U (x_ns x2)) + sampled m D K h d Y (mvec (n_pressure m) (o_BNG ops) (s_dP (x_ns x2)))) <= res_f.
Proof.
  intros m D P types values name bodies t0 U0 p0 ops X x0 conv kv kp kf conf fuel r lines j l h K w bd i d Y Hs Hb HI Hh H Hj Hbo Hun HK Hw Hl Hd.
  destruct (d_init_inv m D P types values Hs Hb _ _ _ _ _ _ _ _ _ HI) as (B0 & HB0 & EO & EX & Ex0).
  assert (Hi : s_ite (x_ns x0) = c_nstart conf) by (rewrite Ex0; reflexivity).
  destruct (decoupled_iterations_file _ _ _ _ _ _ _ _ _ _ _ _ _ _ _ Hi H) as [A _].
  destruct (A _ _ Hj) as (x & x2 & Hk & Ha & _ & ([iv rv] & [ip rp] & [jf rf] & El & rhs1 & s1 & b & E1 & E2 & _ & _ & E5)).
  exists iv, rv, ip, rp, jf, rf, x2. split; [exact El|]. split; [cbn [run_steps]; rewrite Hk; exact Ha|].
  unfold d_assembleRHSVelocity in E1. apply bind_ok_inv in E1. destruct E1 as ([rhs0 s1'] & E1 & E0). injection E0 as <- <-.
  set (U1 := answer kv (s_U (x_ns x)) (vaxpy rhs0 1 (mvec (n_forces m bodies) (di_H X) (x_f x)))) in *.
  destruct (located_row m D bodies bd i d Y Hbo Hl Hd) as (row & Hr & Er).
  destruct (extra_inv m D P _ _ _ _ _ EX) as (E & HH & BN & EI & EBn & EXs). assert (EE : di_E X = E) by (rewrite EXs; reflexivity).
  pose proof (slip_residual m D P ops B0 name bodies X conv (d_assembleRHSForces m X) (fun _ => 0) (answer kv) (answer kp) (answer kf) x x2 rhs0 s1' EX) as S.
  specialize (S ltac:(intros U q Hq; unfold d_assembleRHSForces, vscale; lra) Ha E1 row Hr). cbv zeta in S. fold U1 in S. rewrite EE in S.
  rewrite !(sampled_row m D h B0 name bodies types values _ E HH row bd i d Y _ K w Hs Hun Hbo HK Hb HB0 Hw EI Er Hl) in S.
  assert (Er2 : rf = sqrt (norm2 (n_forces m bodies) (residual (n_forces m bodies) (di_EBNH X) (answer kf (x_df x) (d_assembleRHSForces m X U1)) (d_assembleRHSForces m X U1)))).
  { rewrite <- Hh, <- E5. reflexivity. }
  rewrite Er2. eapply Rle_trans; [|exact (norm_bound _ _ row Hr)]. apply Req_le. rewrite S. rewrite <- Rabs_Ropp. f_equal. lra.
Qed.
Print Assumptions decoupled_reported_slip.

(** Moving bodies: the sampled velocity is compared with that of the body at
    the time of the step. *)
Theorem moving_reported_residual : forall m D P types values name bodies mo pos vel t0 U0 p0 ops s0 conv kv kp kf conf fuel r lines j l,
  mesh_setup m D -> bc_fits m types -> bodies_ok m D bodies -> prescribed m D bodies mo pos vel -> periodic_min m 2 -> p_refp P = false ->
  r_init m D P types values name bodies t0 (c_nstart conf) U0 p0 = Ok (ops, s0) ->
  reports_residual (n_pressure m) (o_DBNG ops) kp -> (forall A, reports_residual (n_forces m bodies) A (kf A)) ->
  iterations_file fuel (fun s => s_ite (x_ns (r_x s))) conf (r_advance_rep m D P ops name mo conv kv kp kf) d_line s0 = (r, lines) ->
  nth_error lines j = Some l ->
  exists iters_v res_v iters_p res_p iters_f res_f s2, l_reports l = [(iters_v, res_v); (iters_p, res_p); (iters_f, res_f)] /\
    run_steps (r_advance m D P ops name mo conv (answer kv) (answer kp) (fun A => answer (kf A))) (S j) s0 = Ok s2 /\
    (forall u, extends m D (s_bc (x_ns (r_x s2))) (s_U (x_ns (r_x s2))) u ->
       sumR (fun p => net_flux m false u p * net_flux m false u p) (cells m) = res_p * res_p /\
       forall p, In p (cells m) -> Rabs (net_flux m false u p) <= res_p) /\
    let t := t0 + INR (S j) * p_dt P in
    forall h K w bd c i Y d, uniform_around m h w (bodies_at bodies (pos t)) -> getKernel name = Ok (K, w) -> wide_enough m w ->
      nthZ (pos t) bd = Some c -> nthZ c i = Some Y -> (0 <= d < m_dim m)%Z ->
      Rabs (sampled m D K h d Y (s_U (x_ns (r_x s2))) + sampled m D K h d Y (mvec (n_pressure m) (o_BNG ops) (s_dP (x_ns (r_x s2)))) - vel t bd i d) <= res_f.
Proof.
  intros m D P types values name bodies mo pos vel t0 U0 p0 ops s0 conv kv kp kf conf fuel r lines j l Hs Hb Hbo Hmo Hmin Href HI Hh Hhf H Hj.
  destruct (r_init_inv m D P types values Hs Hb name bodies _ _ _ _ _ _ HI) as (B0 & X0 & x0 & HB0 & EO & _ & _ & Es0 & _ & Ei0).
  assert (Hi : s_ite (x_ns (r_x s0)) = c_nstart conf) by (rewrite Es0; exact Ei0).
  destruct (moving_iterations_file _ _ _ _ _ _ _ _ _ _ _ _ _ _ _ Hi H) as [A _].
  destruct (A _ _ Hj) as (s & s2 & Hk & Ha & _ & ([iv rv] & [ip rp] & [jf rf] & El & rhs1 & s1 & b & E1 & E2 & _ & E4 & E5)).
  assert (Hk2 : run_steps (r_advance m D P ops name mo conv (answer kv) (answer kp) (fun A => answer (kf A))) (S j) s0 = Ok s2) by (cbn [run_steps]; rewrite Hk; exact Ha).
  exists iv, rv, ip, rp, jf, rf, s2. split; [exact El|]. split; [exact Hk2|].
  destruct (r_steps m D P types values Hs Hb name bodies mo pos vel Hmo conv (answer kv) (answer kp) (fun A => answer (kf A)) _ _ _ _ _ _ _ _ HI Hk) as (Hsh & _).
  destruct (r_advance_inv m D P name bodies mo pos vel Hmo conv (answer kv) (answer kp) (fun A => answer (kf A)) ops s s2 Hsh Ha) as (EB0 & _ & _ & ES & Hd0).
  assert (Enf : n_forces m (r_bodies s2) = n_forces m bodies) by (rewrite EB0; apply forces_at; exact (len_pos m D bodies mo pos vel Hmo _)).
  rewrite Enf in *. unfold d_assembleRHSVelocity in E1. apply bind_ok_inv in E1. destruct E1 as ([rhs0 s1'] & E1 & E0). injection E0 as <- <-.
  set (X := r_ops s2) in *. set (x := r_x s) in *. set (nf := n_forces m bodies) in *.
  set (U1 := answer kv (s_U (x_ns x)) (vaxpy rhs0 1 (mvec nf (di_H X) (x_f x)))) in *. set (bf := r_assembleRHSForces m X (r_UB s2) U1) in *.
  assert (Edf : x_df (r_x s2) = answer (kf (di_EBNH X)) (x_df x) bf).
  { pose proof Hd0 as Hd. rewrite ES in Hd. unfold d_advance, d_assembleRHSVelocity in Hd. cbv zeta in Hd. fold (begun P (x_ns x)) in Hd. rewrite E1 in Hd. cbn [bind] in Hd.
    destruct (rhsvel_keeps _ _ _ _ _ _ _ _ _ E1) as (_ & EU & _). rewrite EU in Hd. cbn [begun s_U] in Hd.
    do 2 (apply bind_ok_inv in Hd; destruct Hd as (? & _ & Hd)). injection Hd as <-. reflexivity. }
  assert (Erp : rp = sqrt (norm2 (n_pressure m) (residual (n_pressure m) (o_DBNG ops) (answer kp (s_dP (x_ns x)) b) b))) by (rewrite <- Hh, <- E4; reflexivity).
  assert (Erf : rf = sqrt (norm2 nf (residual nf (di_EBNH X) (answer (kf (di_EBNH X)) (x_df x) bf) bf))) by (rewrite <- Hhf, <- E5; reflexivity).
  assert (MR := fun u => moving_residual m D P types values name bodies mo pos vel t0 (c_nstart conf) U0 p0 ops s0 conv (answer kv) (answer kp) (fun A => answer (kf A)) j s s2 rhs0 s1' b u
                  Hs Hb Hbo Hmo Hmin Href HI Hk Ha E1 ltac:(rewrite Edf; exact E2)). cbv zeta in MR. split.
  - intros u Hu. destruct (MR u Hu) as [F1 _].
    assert (S2 : sumR (fun p => net_flux m false u p * net_flux m false u p) (cells m) = rp * rp).
    { rewrite Erp. rewrite sqrt_sqrt by (apply sumR_nonneg; intros q _; apply Rle_0_sqr). symmetry. apply (sum_cells m D); [exact (setup_facts _ _ Hs)|].
      intros id p Np. now rewrite (F1 id p Np). }
    split; [exact S2|]. intros p Hp. apply (squares_bound (net_flux m false u) (cells m)); [rewrite Erp; apply sqrt_pos|exact S2|exact Hp].
  - intros t h K w bd c i Y d Hun HK Hw Ec EY Hd.
    destruct (r_steps m D P types values Hs Hb name bodies mo pos vel Hmo conv (answer kv) (answer kp) (fun A => answer (kf A)) _ _ _ _ _ _ _ _ HI Hk2) as (_ & (h1 & Hh1) & _).
    destruct (extends_exists m D types values _ _ (s_U (x_ns (r_x s2))) (setup_facts _ _ Hs) Hb Hh1) as (u & Hu).
    destruct (MR u Hu) as [_ F2]. destruct (F2 h K w bd c i Y d Hun HK Hw Ec EY Hd) as (row & Er & F).
    fold X x nf U1 bf in F. rewrite ES in F. rewrite Erf.
    assert (Hr : (0 <= row < nf)%Z). { apply nthZ_Some_range in Er. rewrite body_layout_len in Er by apply Hbo. exact Er. }
    eapply Rle_trans; [|exact (norm_bound _ _ row Hr)]. apply Req_le. fold t in F. rewrite F, <- Rabs_Ropp. f_equal. lra.
Qed.
Print Assumptions moving_reported_residual.

(** A case: a run of three steps, from any initial fields, with a Poisson
    solver that returns anything and tells the norm of what it leaves; the file
    has three lines, numbered 5, 6 and 7. *)
Example iterations_case : forall U0 p0 (sol : vec -> vec -> vec), let m := un_mesh false false in let D := un_dec false false in let P := ex_par false in
  let types := un_types false false in let conf := mkConf "o" "l" 4 3 1 1 in
  exists ops s0, ns_init m D P types (fun _ _ => 0) 0 4 U0 p0 = Ok (ops, s0) /\
    let kv : rksp := fun g b => (sol g b, 2%Z, (1%Z, 0)) in
    let kp : rksp := fun g b => (sol g b, 2%Z, (7%Z, sqrt (norm2 (n_pressure m) (residual (n_pressure m) (o_DBNG ops) (sol g b) b)))) in
    reports_residual (n_pressure m) (o_DBNG ops) kp /\ periodic_min m 2 /\
    exists s2 lines, iterations_file 3 s_ite conf (ns_advance_rep m D P ops (convection m D) kv kp) ns_line s0 = (Ok (Some s2), lines) /\ map l_step lines = [5; 6; 7]%Z.
Proof.
  intros U0 p0 sol m D P types conf. pose proof (un_setup false false) as Hs. pose proof (un_fits false false) as Hb. pose proof (setup_facts _ _ Hs) as F.
  destruct (init_total m D P types (fun _ _ => 0) 0 4 U0 p0 F Hb ltac:(cbn; lia)) as (ops & s0 & HI). exists ops, s0. split; [exact HI|]. intros kv kp.
  split; [intros g b; reflexivity|]. split.
  { intros f d Hf Hd. assert (E : m_dim m = 2%Z) by reflexivity. rewrite E in *. assert (f = 0 \/ f = 1)%Z as [->| ->] by lia; assert (d = 0 \/ d = 1)%Z as [->| ->] by lia; discriminate. }
  assert (Hc : forall h B x, boundary_after m D types (fun _ _ => 0) ([OpICs U0] ++ h) B -> is_ok (convection m D B x)) by (intros h B x HB; eapply convection_total; eauto).
  assert (T : forall k, exists s, run_steps (advance m D P ops (convection m D) sol sol) k s0 = Ok s).
  { intros k. destruct (steps_total m D P types (fun _ _ => 0) F Hb (convection m D) sol sol 0 4 U0 p0 ops s0 k HI Hc) as (s & E). exists s. now rewrite run_steps_ns. }
  destruct (ns_init_step _ _ _ _ _ _ _ 4%Z _ _ _ _ HI) as [Hi _].
  destruct (T 3%nat) as (s3 & E3). cbn [run_steps bind] in E3.
  apply bind_ok_inv in E3. destruct E3 as (s2 & E2 & A3). apply bind_ok_inv in E2. destruct E2 as (s1 & A1 & A2).
  assert (W : forall s s' K, advance m D P ops (convection m D) sol sol s = Ok s' -> exists K2, ns_advance_rep m D P ops (convection m D) kv kp (s, K) = Ok (s', K2)).
  { intros s s' K E. apply rep_step_total; [intros g b; unfold converged; cbn; lia..|exact E]. }
  assert (I : forall s K s' K2, ns_advance_rep m D P ops (convection m D) kv kp (s, K) = Ok (s', K2) -> s_ite s' = (s_ite s + 1)%Z).
  { intros s K s' K2 E. exact (proj1 (proj2 (rep_step_ok _ _ _ _ _ _ _ _ _ ltac:(intros ? ? ?; apply rhsvel_keeps) _ _ _ _ E))). }
  destruct (W _ _ no_reports A1) as (K1 & R1). destruct (W _ _ K1 A2) as (K2 & R2). destruct (W _ _ K2 A3) as (K3 & R3).
  pose proof (I _ _ _ _ R1) as I1. pose proof (I _ _ _ _ R2) as I2. pose proof (I _ _ _ _ R3) as I3.
  exists s3. eexists. unfold iterations_file. cbn [report_loop fst c_nstart c_nt conf]. rewrite Hi. change (4 >=? 4 + 3)%Z with false. cbv iota. rewrite R1. cbn [fst snd].
  rewrite I1, Hi. change (4 + 1 >=? 4 + 3)%Z with false. cbv iota. rewrite R2. cbn [fst snd].
  rewrite I2, I1, Hi. change (4 + 1 + 1 >=? 4 + 3)%Z with false. cbv iota. rewrite R3. cbn [fst snd].
  rewrite I3, I2, I1, Hi. change (4 + 1 + 1 + 1 >=? 4 + 3)%Z with true. cbv iota. split; [reflexivity|]. reflexivity.
Qed.

(** A case with moving bodies: the two oscillating points of [moving_case], any
    kernel, any initial fields, any number k of steps; solvers that return
    anything and tell the norm of what they leave. *)
Example moving_iterations_case : forall name K w U0 p0 k (sol : vec -> vec -> vec), getKernel name = Ok (K, w) ->
  let m := un_mesh false false in let D := un_dec false false in let bodies := pair [4; 4] [13 / 4; 9 / 2] in let P := euler_par in
  let Am := osc_Am 1 1 in let Um := osc_Um 1 Am in let mo := osc_motion (nranks D) 1 Am Um (default_body 2 2) [[4; 4]; [13 / 4; 9 / 2]] in
  let pos := osc_pos 1 Am [[4; 4]; [13 / 4; 9 / 2]] in let types := un_types false false in let conf := mkConf "o" "l" 0 (Z.of_nat k) 1 1 in
  mesh_setup m D /\ bc_fits m types /\ bodies_ok m D bodies /\ prescribed m D bodies mo pos (osc_velocity 1 Um) /\ periodic_min m 2 /\ p_refp P = false /\
  wide_enough m w /\ (forall t, uniform_around m unit_h w (bodies_at bodies (pos t))) /\
  exists O s0, r_init m D P types (fun _ _ => 0) name bodies 0 0 U0 p0 = Ok (O, s0) /\
    let kv : rksp := fun g b => (sol g b, 2%Z, (1%Z, 0)) in
    let kp : rksp := fun g b => (sol g b, 2%Z, (7%Z, sqrt (norm2 (n_pressure m) (residual (n_pressure m) (o_DBNG O) (sol g b) b)))) in
    let kf : mat -> rksp := fun A g b => (sol g b, 3%Z, (9%Z, sqrt (norm2 (n_forces m bodies) (residual (n_forces m bodies) A (sol g b) b)))) in
    reports_residual (n_pressure m) (o_DBNG O) kp /\ (forall A, reports_residual (n_forces m bodies) A (kf A)) /\
    exists s2 lines, iterations_file k (fun s => s_ite (x_ns (r_x s))) conf (r_advance_rep m D P O name mo (convection m D) kv kp kf) d_line s0 = (Ok (Some s2), lines) /\
      lenZ lines = Z.of_nat k.
Proof.
  intros name K w U0 p0 k sol HK m D bodies P Am Um mo pos types conf.
  pose proof (un_setup false false) as Hs. pose proof (un_fits false false) as Hb. pose proof (setup_facts _ _ Hs) as F.
  pose proof (pair_ok false false [4; 4] [13 / 4; 9 / 2] eq_refl eq_refl) as Hbo. pose proof (un_uniform false false) as Hu.
  assert (W : (w <= 3)%Z) by (destruct (getKernel_cases _ _ _ HK) as [(_ & _ & -> & _)|(_ & _ & -> & _)]; lia).
  pose proof (un_min 2 ltac:(lia)) as Hmin. pose proof (un_wide false false w W) as Hw.
  destruct (oscillating_cylinder_motion m D 1 1 1 (default_body 2 2) [[4; 4]; [13 / 4; 9 / 2]] (un_dim _ _) Hbo) as (Hmo & _ & EUm). fold Am Um mo pos in Hmo.
  split; [exact Hs|]. split; [exact Hb|]. split; [exact Hbo|]. split; [exact Hmo|]. split; [exact Hmin|]. split; [reflexivity|]. split; [exact Hw|].
  split; [intros t; exact (uniform_is_around m D unit_h w _ Hs Hu)|].
  assert (HA : forall y, Rabs (Am * sin y) <= 1 / 4).
  { intros y. rewrite Rabs_mult. assert (Rabs (sin y) <= 1) by (apply Rabs_le, SIN_bound). assert (HP : 3 < PI) by (pose proof PI2_3_2; lra).
    assert (0 < Am <= 1 / 4).
    { unfold Am, osc_Am. assert (0 < / (2 * PI)) by (apply Rinv_0_lt_compat; lra). assert (/ (2 * PI) <= / 4) by (apply Rinv_le_contravar; lra). unfold Rdiv. lra. }
    rewrite (Rabs_right Am) by lra. pose proof (Rabs_pos (sin y)). nra. }
  assert (HL : forall tt b i X, located (bodies_at bodies (pos tt)) b i X -> exists x y, X = [x; y] /\ 3 <= x < 5 /\ 3 <= y < 5).
  { intros tt b i X Hl. change (bodies_at bodies (pos tt)) with (pair [4 - Am * sin (2 * PI * 1 * tt); 4] [13 / 4 - Am * sin (2 * PI * 1 * tt); 9 / 2]) in Hl.
    specialize (HA (2 * PI * 1 * tt)). pose proof (Rle_abs (Am * sin (2 * PI * 1 * tt))) as G1. pose proof (Rle_abs (- (Am * sin (2 * PI * 1 * tt)))) as G2. rewrite Rabs_Ropp in G2.
    apply pair_located in Hl. destruct Hl as (_ & [(_ & ->)|(_ & ->)]); eexists; eexists; (split; [reflexivity|]); split; lra. }
  assert (T : forall j, exists O s0 s, r_init m D P types (fun _ _ => 0) name bodies 0 0 U0 p0 = Ok (O, s0) /\
                run_steps (r_advance m D P O name mo (convection m D) sol sol (fun _ => sol)) j s0 = Ok s).
  { intros j. apply (moving_never_fails m D P types (fun _ _ => 0) name bodies mo pos (osc_velocity 1 Um) (convection m D) sol sol (fun _ => sol) K w 0 0 U0 p0 j Hs Hb Hbo Hmo HK).
    - cbn. lia.
    - intros b i Y Hl. apply pair_located in Hl. destruct Hl as (_ & [(_ & ->)|(_ & ->)]); apply un_reach; auto; lra.
    - intros i b q Y _ Hl. destruct (HL _ _ _ _ Hl) as (x & y & -> & Hx & Hy). now apply un_reach.
    - apply pair_ranks.
    - intros hist B x HB. eapply convection_total; eauto. }
  destruct (T 0%nat) as (O & s0 & _ & HI & _). exists O, s0. split; [exact HI|]. intros kv kp kf. split; [intros g b; reflexivity|]. split; [intros A g b; reflexivity|].
  destruct (r_init_inv m D P types _ Hs Hb name bodies _ _ _ _ _ _ HI) as (Bz & Xz & x0 & _ & _ & _ & _ & Es0 & _ & Ei0).
  assert (Hi : s_ite (x_ns (r_x s0)) = c_nstart conf) by (rewrite Es0; exact Ei0).
  destruct (loop_ends (fun s => s_ite (x_ns (r_x s))) conf (r_advance_rep m D P O name mo (convection m D) kv kp kf) d_line
              (fun s => exists j, run_steps (r_advance m D P O name mo (convection m D) sol sol (fun _ => sol)) j s0 = Ok s)) with (fuel := k) (s := s0) (K := no_reports) (file := @nil line)
    as (s2 & lines & E).
  - intros s Kr (j & Ej). destruct (T (S j)) as (O' & s0' & s' & HI' & E'). rewrite HI in HI'. injection HI' as <- <-. pose proof E' as Ea. cbn [run_steps] in Ea. rewrite Ej in Ea. cbn [bind] in Ea.
    destruct (r_rep_step_total m D P O name mo (convection m D) kv kp kf s s' Kr) as (K2 & E2); [intros; unfold converged; cbn; lia..|exact Ea|].
    exists s', K2. split; [exact E2|]. split; [exists (S j); exact E'|]. exact (proj1 (proj2 (r_rep_step_ok _ _ _ _ _ _ _ _ _ _ _ _ _ _ E2))).
  - exists 0%nat. reflexivity.
  - rewrite Hi. cbn. lia.
  - exists s2, lines. split; [exact E|]. destruct (moving_iterations_file _ _ _ _ _ _ _ _ _ _ _ _ _ _ _ Hi E) as (_ & _ & A & _). destruct (A s2 eq_refl) as [A1 _]. rewrite A1. cbn. lia.
Qed.
