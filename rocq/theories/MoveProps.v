(** C50: moving bodies. *)
From Coq Require Import String ZifyBool FunctionalExtensionality.
From Verif Require Import Prelude ZSum RSum TypesModel GridModel GridSpec GridProof MeshProof IndexModel IndexSpec IndexProof
  BoundaryModel BoundarySpec BoundaryProof OperatorModel OperatorSpec OperatorProof BStateProof
  MatModel NSModel NSSpec NSProof NSTotal ConvSpec ConvTotal BodyModel BodySpec BodyProof
  DeltaModel DeltaSpec DeltaProof DeltaSum DeltaKernel DeltaProps NameModel IbpmModel IbpmSpec IbpmProof IbpmStep IbpmDec IbpmMove IbpmFiles IbpmOsc IbpmProps.
Local Open Scope R_scope.

(** C50. After every step, for a motion that is a function of time: the time
    is t0 + k dt, the points are at their positions at that time, the velocity
    vector holds their velocities at that time, and the operators and the
    matrix of the force solver are those of these positions. *)
Theorem moving_bodies_follow_time : forall m D P types values name bodies mo pos vel t0 n0 U0 p0 O s0 conv vs ps fsolve k s,
  mesh_setup m D -> bc_fits m types -> prescribed m D bodies mo pos vel ->
  r_init m D P types values name bodies t0 n0 U0 p0 = Ok (O, s0) ->
  run_steps (r_advance m D P O name mo conv vs ps fsolve) (S k) s0 = Ok s ->
  let t := t0 + INR (S k) * p_dt P in
  s_t (x_ns (r_x s)) = t /\ s_ite (x_ns (r_x s)) = (n0 + Z.of_nat (S k))%Z /\
  r_bodies s = bodies_at bodies (pos t) /\ holds_velocity m D bodies (r_UB s) (vel t) /\
  (exists B, boundary_after m D types values [OpICs U0] B /\ createExtraOperators m D B P O name (bodies_at bodies (pos t)) = Ok (r_ops s)) /\
  r_solver s = di_EBNH (r_ops s).
Proof.
  intros m D P types values name bodies mo pos vel t0 n0 U0 p0 O s0 conv vs ps fsolve k s Hs Hb Hmo.
  exact (moving_state m D P types values Hs Hb name bodies mo pos vel Hmo conv vs ps fsolve t0 n0 U0 p0 O s0 k s).
Qed.
Print Assumptions moving_bodies_follow_time.

(** C50, C49. The slip on a mesh that is
    uniform around the bodies at the new time: with an exact solve for the forces,
    the velocity sampled at the position of a point at the new time is its
    velocity at the new time, up to the correction of the pressure projection. *)
Theorem moving_slip : forall m D P types values name bodies mo pos vel t0 n0 U0 p0 O s0 conv vs ps fsolve k s s2 rhs0 s1 h K w,
  mesh_setup m D -> bc_fits m types -> bodies_ok m D bodies -> prescribed m D bodies mo pos vel ->
  uniform_around m h w (bodies_at bodies (pos (t0 + INR (S k) * p_dt P))) -> getKernel name = Ok (K, w) -> wide_enough m w ->
  r_init m D P types values name bodies t0 n0 U0 p0 = Ok (O, s0) ->
  run_steps (r_advance m D P O name mo conv vs ps fsolve) k s0 = Ok s -> r_advance m D P O name mo conv vs ps fsolve s = Ok s2 ->
  let x := r_x s in let X := r_ops s2 in let nf := n_forces m bodies in
  rhs_velocity (n_pressure m) m D P O conv (begun P (x_ns x)) = Ok (rhs0, s1) ->
  (let b := r_assembleRHSForces m X (r_UB s2) (vs (s_U (x_ns x)) (vaxpy rhs0 1 (mvec nf (di_H X) (x_f x)))) in
   solves nf (di_EBNH X) (fsolve (r_solver s2) (x_df x) b) b) ->
  let t := t0 + INR (S k) * p_dt P in
  forall b c i Y j, nthZ (pos t) b = Some c -> nthZ c i = Some Y -> (0 <= j < m_dim m)%Z ->
    sampled m D K h j Y (s_U (x_ns (r_x s2))) = vel t b i j - sampled m D K h j Y (mvec (n_pressure m) (o_BNG O) (s_dP (x_ns (r_x s2)))).
Proof.
  intros m D P types values name bodies mo pos vel t0 n0 U0 p0 O s0 conv vs ps fsolve k s s2 rhs0 s1 h K w Hs Hb Hbo Hmo Hu HK Hw HI Hk Ha x X nf E1 Hsol t b c i Y j Ec EY Hj.
  assert (Hk2 : run_steps (r_advance m D P O name mo conv vs ps fsolve) (S k) s0 = Ok s2) by (cbn [run_steps]; rewrite Hk; exact Ha).
  destruct (moving_state m D P types values Hs Hb name bodies mo pos vel Hmo conv vs ps fsolve _ _ _ _ _ _ _ _ HI Hk2) as (_ & _ & EB & HV & (B0 & HB0 & EX) & ES).
  destruct (r_steps m D P types values Hs Hb name bodies mo pos vel Hmo conv vs ps fsolve _ _ _ _ _ _ _ _ HI Hk) as (Hsh & _).
  destruct (r_advance_inv m D P name bodies mo pos vel Hmo conv vs ps fsolve O s s2 Hsh Ha) as (_ & _ & _ & _ & Hd).
  fold t in EB, HV, EX. pose proof (len_pos m D bodies mo pos vel Hmo t) as L. pose proof (shape_pos m D bodies mo pos vel Hmo t) as Hsp.
  pose proof (ok_at m D bodies (pos t) Hbo Hsp) as Hbo'. rewrite EB in Hd.
  assert (Hl : located (bodies_at bodies (pos t)) b i Y) by (apply (located_at bodies (pos t) b i Y L); eauto).
  destruct (located_row m D (bodies_at bodies (pos t)) b i j Y Hbo' Hl Hj) as (row & Hr & Er).
  pose proof (slip_lemma m D P O B0 name (bodies_at bodies (pos t)) X conv (r_assembleRHSForces m X (r_UB s2)) (r_UB s2) vs ps (fsolve (r_solver s2)) x (r_x s2) rhs0 s1 EX) as S.
  specialize (S ltac:(intros U q Hq; unfold r_assembleRHSForces, vscale; lra) Hd E1).
  rewrite (forces_at m bodies (pos t) L) in S, Hr. specialize (S Hsol row Hr).
  destruct (extra_inv m D P _ _ _ _ _ EX) as (E & H & BN & EI & EBn & EXs). assert (EE : di_E X = E) by (unfold X; rewrite EXs; reflexivity). rewrite EE in S.
  rewrite !(sampled_row m D h B0 name (bodies_at bodies (pos t)) types values _ E H row b i j Y _ K w Hs Hu Hbo' HK Hb HB0 Hw EI Er Hl) in S.
  rewrite at_fst in Er by exact L. rewrite (HV row b i j Er) in S. lra.
Qed.
Print Assumptions moving_slip.

(** C50, C49. The velocity stays free of divergence while the bodies move. *)
Theorem moving_divergence_free : forall m D P types values name bodies mo pos vel t0 n0 U0 p0 O s0 conv vs ps fsolve k s s2 rhs0 s1 b u,
  mesh_setup m D -> bc_fits m types -> prescribed m D bodies mo pos vel -> periodic_min m 2 ->
  r_init m D P types values name bodies t0 n0 U0 p0 = Ok (O, s0) ->
  run_steps (r_advance m D P O name mo conv vs ps fsolve) k s0 = Ok s -> r_advance m D P O name mo conv vs ps fsolve s = Ok s2 ->
  let x := r_x s in let X := r_ops s2 in let nf := n_forces m bodies in
  rhs_velocity (n_pressure m) m D P O conv (begun P (x_ns x)) = Ok (rhs0, s1) ->
  let U1 := vs (s_U (x_ns x)) (vaxpy rhs0 1 (mvec nf (di_H X) (x_f x))) in
  let U2 := vaxpy U1 1 (mvec nf (di_BNH X) (x_df (r_x s2))) in
  assembleRHSPoisson m D P O U2 (s_bc s1) = Ok b ->
  solves (n_pressure m) (o_DBNG O) (ps (s_dP (x_ns x)) b) b ->
  (p_refp P = true -> no_normal_neumann m types /\
     exists c, correction_mult m (nranks D) (o_D O) (s_bc s1) = Ok c /\
       total (n_pressure m) (vaxpy c 1 (mvec (n_velocity m) (entry (op_log (o_D O))) U2)) = 0) ->
  extends m D (s_bc (x_ns (r_x s2))) (s_U (x_ns (r_x s2))) u ->
  forall p, interior (m_n m 3) p -> net_flux m false u p = 0.
Proof.
  intros m D P types values name bodies mo pos vel t0 n0 U0 p0 O s0 conv vs ps fsolve k s s2 rhs0 s1 b u Hs Hb Hmo Hmin HI Hk Ha x X nf E1 U1 U2 E2 Hsol Hpin Hext.
  destruct (r_steps m D P types values Hs Hb name bodies mo pos vel Hmo conv vs ps fsolve _ _ _ _ _ _ _ _ HI Hk) as (Hsh & (h1 & Hh1) & _).
  destruct (r_advance_inv m D P name bodies mo pos vel Hmo conv vs ps fsolve O s s2 Hsh Ha) as (EB & _ & _ & _ & Hd).
  destruct (r_init_inv m D P types values Hs Hb name bodies _ _ _ _ _ _ HI) as (B0 & X0 & x0 & HB0 & EO & _).
  rewrite EB, (forces_at m bodies _ (len_pos m D bodies mo pos vel Hmo _)) in Hd.
  exact (decoupled_divergence m D P types values Hs Hb O B0 U0 h1 X nf conv (r_assembleRHSForces m X (r_UB s2)) vs ps (fsolve (r_solver s2)) x (r_x s2) rhs0 s1 b u Hmin EO HB0 Hh1 Hd E1 E2 Hsol Hpin Hext).
Qed.
Print Assumptions moving_divergence_free.

(** C50. The run never fails as long as the points stay inside the domain and
    within reach. *)
Theorem moving_never_fails : forall m D P types values name bodies mo pos vel conv vs ps fsolve K w t0 n0 U0 p0 k,
  mesh_setup m D -> bc_fits m types -> bodies_ok m D bodies -> prescribed m D bodies mo pos vel ->
  getKernel name = Ok (K, w) -> (1 <= p_bn P)%Z ->
  (forall b i X, located bodies b i X -> inside_domain m X /\ in_reach m types w X) ->
  (forall j b i X, (1 <= j <= k)%nat -> located (bodies_at bodies (pos (t0 + INR j * p_dt P))) b i X -> inside_domain m X /\ in_reach m types w X) ->
  (forall b bc r, nthZ bodies b = Some bc -> (0 <= r < nranks D)%Z -> (0 < b_l (fst bc) r)%Z) ->
  (forall hist B x, boundary_after m D types values ([OpICs U0] ++ hist) B -> is_ok (conv B x)) ->
  exists O s0 s, r_init m D P types values name bodies t0 n0 U0 p0 = Ok (O, s0) /\ run_steps (r_advance m D P O name mo conv vs ps fsolve) k s0 = Ok s.
Proof.
  intros m D P types values name bodies mo pos vel conv vs ps fsolve K w t0 n0 U0 p0 k Hs Hb Hbo Hmo.
  exact (moving_total m D P types values Hs Hb name bodies mo pos vel Hbo Hmo conv vs ps fsolve K w t0 n0 U0 p0 k).
Qed.
Print Assumptions moving_never_fails.

(** C50. The body files. After k steps of the main loop the file of body b and
    step n0 + j holds the positions at time t0 + j dt if the step is a saving
    step, and the file of step n0 the initial ones; no other file of that name
    pattern exists. *)
Theorem body_files_hold_step_positions : forall m D P types values name bodies mo pos vel t0 n0 U0 p0 O s0 conv vs ps fsolve pr out names nsave k s w0 w,
  mesh_setup m D -> bc_fits m types -> bodies_ok m D bodies -> prescribed m D bodies mo pos vel ->
  NoDup names -> lenZ names = lenZ bodies -> (0 <= n0)%Z ->
  r_init m D P types values name bodies t0 n0 U0 p0 = Ok (O, s0) -> r_ioInitial pr out m names s0 = Ok w0 ->
  r_drive k pr out m names nsave (r_advance m D P O name mo conv vs ps fsolve) s0 = Ok (s, w) ->
  forall b nm bc, nthZ names b = Some nm -> nthZ bodies b = Some bc ->
    on_disk (w0 ++ w) (body_path out nm n0 (m_dim m)) = Some (points_file pr (snd bc)) /\
    (forall j c, (1 <= j <= Z.of_nat k)%Z -> (Z.rem (n0 + j) nsave = 0)%Z -> nthZ (pos (t0 + IZR j * p_dt P)) b = Some c ->
       on_disk (w0 ++ w) (body_path out nm (n0 + j) (m_dim m)) = Some (points_file pr c)) /\
    (forall i, (0 <= i)%Z -> i <> n0 -> (i < n0 \/ n0 + Z.of_nat k < i \/ Z.rem i nsave <> 0)%Z ->
       on_disk (w0 ++ w) (body_path out nm i (m_dim m)) = None).
Proof.
  intros m D P types values name bodies mo pos vel t0 n0 U0 p0 O s0 conv vs ps fsolve pr out names nsave k s w0 w Hs Hb Hbo Hmo Hn Hl H0 HI E0 HD b nm bc En Eb.
  pose proof (drive_files m D P types values Hs Hb name bodies mo pos vel Hbo Hmo conv vs ps fsolve pr out names nsave Hn Hl t0 n0 U0 p0 O s0 k s w w0 H0 HI E0 HD) as DF.
  split; [|split].
  - rewrite (DF n0 b nm H0 En), Z.eqb_refl, Eb. reflexivity.
  - intros j c Hj Hrem Ec. rewrite (DF (n0 + j)%Z b nm ltac:(lia) En). replace (n0 + j =? n0)%Z with false by lia.
    replace ((n0 <? n0 + j) && (n0 + j <=? n0 + Z.of_nat k))%Z with true by lia. rewrite Hrem. cbn [andb Z.eqb]. replace (n0 + j - n0)%Z with j by lia. rewrite Ec. reflexivity.
  - intros i Hi Hne Hor. rewrite (DF i b nm Hi En). replace (i =? n0)%Z with false by lia.
    replace ((n0 <? i) && (i <=? n0 + Z.of_nat k) && (Z.rem i nsave =? 0))%Z with false by lia. reflexivity.
Qed.
Print Assumptions body_files_hold_step_positions.

(** C50, violated on restart: the solver that restarts at step n and time t
    does not move the bodies before it writes their files, so the file of step
    n, which held the positions at time t, now holds the unmoved ones. *)
Theorem restart_body_file_refuted : forall m D P types values name bodies mo pos vel t0 n0 U0 p0 O s0 conv vs ps fsolve pr out names nsave k s w0 w t1 U1 p1 O1 s1 w1,
  mesh_setup m D -> bc_fits m types -> bodies_ok m D bodies -> prescribed m D bodies mo pos vel ->
  NoDup names -> lenZ names = lenZ bodies -> (0 <= n0)%Z -> (1 <= Z.of_nat k)%Z -> (Z.rem (n0 + Z.of_nat k) nsave = 0)%Z ->
  r_init m D P types values name bodies t0 n0 U0 p0 = Ok (O, s0) -> r_ioInitial pr out m names s0 = Ok w0 ->
  r_drive k pr out m names nsave (r_advance m D P O name mo conv vs ps fsolve) s0 = Ok (s, w) ->
  t1 = t0 + IZR (Z.of_nat k) * p_dt P ->
  r_init m D P types values name bodies t1 (n0 + Z.of_nat k) U1 p1 = Ok (O1, s1) -> r_ioInitial pr out m names s1 = Ok w1 ->
  forall b nm bc c, nthZ names b = Some nm -> nthZ bodies b = Some bc -> nthZ (pos t1) b = Some c ->
    let path := body_path out nm (n0 + Z.of_nat k) (m_dim m) in
    on_disk (w0 ++ w) path = Some (points_file pr c) /\ on_disk ((w0 ++ w) ++ w1) path = Some (points_file pr (snd bc)).
Proof.
  intros m D P types values name bodies mo pos vel t0 n0 U0 p0 O s0 conv vs ps fsolve pr out names nsave k s w0 w t1 U1 p1 O1 s1 w1
    Hs Hb Hbo Hmo Hn Hl H0 Hk Hrem HI E0 HD Et HI1 E1 b nm bc c En Eb Ec path.
  destruct (body_files_hold_step_positions m D P types values name bodies mo pos vel t0 n0 U0 p0 O s0 conv vs ps fsolve pr out names nsave k s w0 w Hs Hb Hbo Hmo Hn Hl H0 HI E0 HD b nm bc En Eb) as (_ & X & _).
  split; [apply X; auto; [lia|now rewrite <- Et]|].
  rewrite (initial_files m D P types values Hs Hb name bodies Hbo pr out names Hl _ _ _ _ _ _ HI1) in E1. injection E1 as <-.
  rewrite disk_app. unfold path. rewrite (files_at m pr out names (mf_dim _ _ (setup_facts _ _ Hs)) Hn _ _ b nm (snd bc)); auto; [lia|]. now rewrite nthZ_map, Eb.
Qed.
Print Assumptions restart_body_file_refuted.

(** C50. The base class moves nothing: with its functions the solver computes
    exactly what the decoupled solver computes, whatever the solvers. *)
Theorem resting_bodies : forall m D P types values name bodies t0 n0 U0 p0 O X x0 s0 conv vs ps fsolve k s,
  mesh_setup m D -> bc_fits m types -> bodies_ok m D bodies ->
  d_init m D P types values name bodies t0 n0 U0 p0 = Ok (O, X, x0) -> r_init m D P types values name bodies t0 n0 U0 p0 = Ok (O, s0) ->
  run_steps (r_advance m D P O name still conv vs ps fsolve) k s0 = Ok s ->
  run_steps (d_advance m D P O X (n_forces m bodies) conv (d_assembleRHSForces m X) vs ps (fsolve (di_EBNH X))) k x0 = Ok (r_x s) /\
  r_bodies s = bodies /\ r_UB s = (fun _ => 0) /\ r_ops s = X /\ r_solver s = di_EBNH X.
Proof.
  intros m D P types values name bodies t0 n0 U0 p0 O X x0 s0 conv vs ps fsolve k s Hs Hb Hbo HDI HI. pose proof (setup_facts _ _ Hs) as F.
  unfold r_init in HI. rewrite HDI in HI. cbn [bind fst snd] in HI. injection HI as <-.
  destruct (d_init_inv m D P types values Hs Hb _ _ _ _ _ _ _ _ _ HDI) as (B0 & HB0 & EO & EX & _).
  revert s. induction k as [|k IH]; intros s H.
  - injection H as <-. cbn. auto.
  - cbn [run_steps] in *. apply bind_ok_inv in H. destruct H as (s' & Es' & Ha). destruct (IH s' Es') as (Ed & E1 & E2 & E3 & E4). rewrite Ed. cbn [bind].
    unfold r_advance in Ha. apply bind_ok_inv in Ha. destruct Ha as (s1 & Em & Ha). unfold moveBodies in Em. cbn [still mo_move mo_vel bind] in Em. cbv zeta in Em.
    rewrite E1, set_coords_at, at_self in Em by now rewrite map_length. destruct (d_steps_boundary m D P types values Hs Hb _ _ _ _ _ _ _ _ _ _ _ _ _ _ _ _ _ HDI Ed) as ((h1 & Hh1) & _).
    rewrite (extra_same m D P types values _ _ _ B0 O name bodies F Hb Hh1 HB0), EX in Em. cbn [bind] in Em. injection Em as <-. cbn [r_ops r_bodies r_UB r_solver r_x] in Ha.
    apply bind_ok_inv in Ha. destruct Ha as (x2 & E5 & Ha). injection Ha as <-. cbn [r_ops r_bodies r_UB r_solver r_x]. split; [|auto].
    rewrite <- E5, E2. f_equal. apply functional_extensionality. intros U. apply functional_extensionality. intros i. unfold d_assembleRHSForces, r_assembleRHSForces, vscale. ring.
Qed.
Print Assumptions resting_bodies.

(** C50. The oscillating cylinder: the motion of the example is a function of
    time, the velocity it prescribes is the derivative of the position at every
    time, the cylinder returns after each period and is at the file's position
    at time 0, and the peak displacement and velocity give the requested
    Keulegan-Carpenter number KC = Um / (f Dc). *)
Theorem oscillating_cylinder_motion : forall m D f Dc KC b coords0,
  m_dim m = 2%Z -> bodies_ok m D [(b, coords0)] ->
  let Am := osc_Am Dc KC in let Um := osc_Um f Am in
  prescribed m D [(b, coords0)] (osc_motion (nranks D) f Am Um b coords0) (osc_pos f Am coords0) (osc_velocity f Um) /\
  (forall i row c, nthZ coords0 i = Some row -> (0 <= c < 2)%Z -> exists x : R -> R,
     (forall t, exists row', nthZ (osc_pos f Am coords0 t) 0 = Some (map (fun row => [xc row 0 - Am * sin (2 * PI * f * t); xc row 1]) coords0) /\
        nthZ (map (fun row => [xc row 0 - Am * sin (2 * PI * f * t); xc row 1]) coords0) i = Some row' /\ xc row' c = x t) /\
     (forall t, derivable_pt_lim x t (osc_velocity f Um t 0 i c)) /\
     x 0 = xc row c /\ (forall t, Rabs (x t - xc row c) <= Rabs Am) /\ (f <> 0 -> forall t, x (t + 1 / f) = x t)) /\
  Um = KC * f * Dc.
Proof.
  intros m D f Dc KC b coords0 Hd Hbo Am Um. split; [now apply osc_prescribed|]. split.
  - intros i row c Ei Hc. assert (c = 0 \/ c = 1)%Z as [->| ->] by lia.
    + exists (fun t => xc row 0 - Am * sin (2 * PI * f * t)). split; [|split; [|split; [|split]]].
      * intros t. eexists. split; [reflexivity|]. rewrite nthZ_map, Ei. split; reflexivity.
      * intros t. apply osc_derivative.
      * rewrite Rmult_0_r, sin_0. ring.
      * intros t. replace (xc row 0 - Am * sin (2 * PI * f * t) - xc row 0) with (- (Am * sin (2 * PI * f * t))) by ring.
        rewrite Rabs_Ropp, Rabs_mult. rewrite <- (Rmult_1_r (Rabs Am)) at 2. apply Rmult_le_compat_l; [apply Rabs_pos|]. apply Rabs_le. apply SIN_bound.
      * intros Hf t. replace (2 * PI * f * (t + 1 / f)) with (2 * PI * f * t + 2 * INR 1 * PI) by (cbn; field; auto). now rewrite sin_period.
    + exists (fun t => xc row 1). split; [|split; [|split; [|split]]].
      * intros t. eexists. split; [reflexivity|]. rewrite nthZ_map, Ei. split; reflexivity.
      * intros t. apply derivable_pt_lim_const.
      * reflexivity.
      * intros t. rewrite Rminus_diag_eq by reflexivity. rewrite Rabs_R0. apply Rabs_pos.
      * reflexivity.
  - unfold Um, Am, osc_Um, osc_Am. field. apply PI_neq0.
Qed.
Print Assumptions oscillating_cylinder_motion.

(** Two points oscillating in the middle of the walled box, whose walls move
    with them at the time of the last step: any kernel, any initial state, any
    number of steps. The velocity solver returns the uniform flow of that
    velocity, the others 0. *)
Example moving_case : forall name K w U0 p0 k pr, getKernel name = Ok (K, w) ->
  let m := un_mesh false false in let D := un_dec false false in let bodies := pair [4; 4] [13 / 4; 9 / 2] in let P := euler_par in
  let Am := osc_Am 1 1 in let Um := osc_Um 1 Am in let mo := osc_motion (nranks D) 1 Am Um (default_body 2 2) [[4; 4]; [13 / 4; 9 / 2]] in
  let pos := osc_pos 1 Am [[4; 4]; [13 / 4; 9 / 2]] in let t := 0 + INR (S k) * p_dt P in let nf := n_forces m bodies in
  let values := fun f _ => osc_velocity 1 Um t 0 0 f in
  mesh_setup m D /\ bc_fits m (un_types false false) /\ bodies_ok m D bodies /\ prescribed m D bodies mo pos (osc_velocity 1 Um) /\
  uniform_around m unit_h w (bodies_at bodies (pos t)) /\ wide_enough m w /\ periodic_min m 2 /\
  nthZ (pos t) 0 = Some [[4 - Am * sin (2 * PI * 1 * t); 4]; [13 / 4 - Am * sin (2 * PI * 1 * t); 9 / 2]] /\
  exists O s0 vs ps fsolve s s2 rhs0 s1 b u w0 wr,
    r_init m D P (un_types false false) values name bodies 0 0 U0 p0 = Ok (O, s0) /\
    run_steps (r_advance m D P O name mo (fun _ x => Ok x) vs ps fsolve) k s0 = Ok s /\ r_advance m D P O name mo (fun _ x => Ok x) vs ps fsolve s = Ok s2 /\
    (let x := r_x s in let X := r_ops s2 in
     rhs_velocity (n_pressure m) m D P O (fun _ x => Ok x) (begun P (x_ns x)) = Ok (rhs0, s1) /\
     let U1 := vs (s_U (x_ns x)) (vaxpy rhs0 1 (mvec nf (di_H X) (x_f x))) in
     (let b := r_assembleRHSForces m X (r_UB s2) U1 in solves nf (di_EBNH X) (fsolve (r_solver s2) (x_df x) b) b) /\
     assembleRHSPoisson m D P O (vaxpy U1 1 (mvec nf (di_BNH X) (x_df (r_x s2)))) (s_bc s1) = Ok b /\
     solves (n_pressure m) (o_DBNG O) (ps (s_dP (x_ns x)) b) b) /\
    extends m D (s_bc (x_ns (r_x s2))) (s_U (x_ns (r_x s2))) u /\
    r_ioInitial pr "out" m ["cylinder"%string] s0 = Ok w0 /\
    r_drive (S k) pr "out" m ["cylinder"%string] 1 (r_advance m D P O name mo (fun _ x => Ok x) vs ps fsolve) s0 = Ok (s2, wr).
Proof.
  intros name K w U0 p0 k pr HK m D bodies P Am Um mo pos t nf values.
  pose proof (un_setup false false) as Hs. pose proof (un_fits false false) as Hb. pose proof (setup_facts _ _ Hs) as F.
  pose proof (pair_ok false false [4; 4] [13 / 4; 9 / 2] eq_refl eq_refl) as Hbo. pose proof (un_uniform false false) as Hu.
  assert (W : (w <= 3)%Z) by (destruct (getKernel_cases _ _ _ HK) as [(_ & _ & -> & _)|(_ & _ & -> & _)]; lia).
  pose proof (un_min 2 ltac:(lia)) as Hmin. pose proof (un_wide false false w W) as Hw.
  destruct (oscillating_cylinder_motion m D 1 1 1 (default_body 2 2) [[4; 4]; [13 / 4; 9 / 2]] (un_dim _ _) Hbo) as (Hmo & _ & EUm). fold Am Um mo pos in Hmo.
  split; [exact Hs|]. split; [exact Hb|]. split; [exact Hbo|]. split; [exact Hmo|]. split; [exact (uniform_is_around m D unit_h w _ Hs Hu)|]. split; [exact Hw|]. split; [exact Hmin|]. split; [reflexivity|].
  assert (HA : forall y, Rabs (Am * sin y) <= 1 / 4).
  { intros y. rewrite Rabs_mult. assert (Rabs (sin y) <= 1) by (apply Rabs_le, SIN_bound). assert (HP : 3 < PI) by (pose proof PI2_3_2; lra).
    assert (0 < Am <= 1 / 4).
    { unfold Am, osc_Am. assert (0 < / (2 * PI)) by (apply Rinv_0_lt_compat; lra). assert (/ (2 * PI) <= / 4) by (apply Rinv_le_contravar; lra). unfold Rdiv. lra. }
    rewrite (Rabs_right Am) by lra. pose proof (Rabs_pos (sin y)). nra. }
  assert (HL : forall tt b i X, located (bodies_at bodies (pos tt)) b i X -> exists x y, X = [x; y] /\ 3 <= x < 5 /\ 3 <= y < 5).
  { intros tt b i X Hl. change (bodies_at bodies (pos tt)) with (pair [4 - Am * sin (2 * PI * 1 * tt); 4] [13 / 4 - Am * sin (2 * PI * 1 * tt); 9 / 2]) in Hl.
    specialize (HA (2 * PI * 1 * tt)). pose proof (Rle_abs (Am * sin (2 * PI * 1 * tt))) as G1. pose proof (Rle_abs (- (Am * sin (2 * PI * 1 * tt)))) as G2. rewrite Rabs_Ropp in G2.
    apply pair_located in Hl. destruct Hl as (_ & [(_ & ->)|(_ & ->)]); eexists; eexists; (split; [reflexivity|]); split; lra. }
  set (vs := fun _ _ : vec => (fun id => match nthZ (packed_layout (m_dim m) D) id with Some (f, p) => osc_velocity 1 Um t 0 0 f | None => 0 end) : vec).
  set (ps := fun _ _ : vec => (fun _ : Z => 0) : vec). set (fs := fun (_ : mat) (_ _ : vec) => (fun _ : Z => 0) : vec).
  destruct (moving_never_fails m D P (un_types false false) values name bodies mo pos (osc_velocity 1 Um) (fun _ x => Ok x) vs ps fs K w 0 0 U0 p0 (S k) Hs Hb Hbo Hmo HK)
    as (O & s0 & s2 & HI & Hs2).
  { cbn. lia. }
  { intros b i Y Hl. apply pair_located in Hl. destruct Hl as (_ & [(_ & ->)|(_ & ->)]); apply un_reach; auto; lra. }
  { intros j b i Y _ Hl. destruct (HL _ _ _ _ Hl) as (x & y & -> & Hx & Hy). now apply un_reach. }
  { apply pair_ranks. }
  { intros. eexists. reflexivity. }
  assert (NDn : NoDup ["cylinder"%string]) by (repeat constructor; intros []).
  destruct (drive_total m D P (un_types false false) values Hs Hb name bodies mo pos (osc_velocity 1 Um) Hbo Hmo (fun _ x => Ok x) vs ps fs pr "out" ["cylinder"%string] 1 eq_refl _ _ _ _ _ _ _ _ ltac:(lia) HI Hs2) as (wr & Ewr).
  pose proof Hs2 as Hs2'. cbn [run_steps] in Hs2'. apply bind_ok_inv in Hs2'. destruct Hs2' as (s & Hk & Ha).
  destruct (r_steps m D P _ _ Hs Hb name bodies mo pos _ Hmo _ vs ps fs _ _ _ _ _ _ _ _ HI Hk) as (Hsh & (h1 & Hh1) & _).
  destruct (r_steps m D P _ _ Hs Hb name bodies mo pos _ Hmo _ vs ps fs _ _ _ _ _ _ _ _ HI Hs2) as (_ & (h2 & Hh2) & _).
  destruct (r_advance_inv m D P name bodies mo pos _ Hmo _ vs ps fs O s s2 Hsh Ha) as (_ & _ & _ & _ & Hd).
  destruct (moving_state m D P _ _ Hs Hb name bodies mo pos _ Hmo _ vs ps fs _ _ _ _ _ _ _ _ HI Hs2) as (_ & _ & EB & HV & (B0 & HB0 & EX) & _).
  fold t in EB, HV, EX. pose proof (len_pos m D bodies mo pos _ Hmo t) as L. pose proof (shape_pos m D bodies mo pos _ Hmo t) as Hsp.
  rewrite EB, (forces_at m bodies (pos t) L) in Hd. fold nf in Hd.
  destruct (d_advance_inv _ _ _ _ _ _ _ _ _ _ _ _ _ Hd) as (rhs0 & s1 & b & X1 & Xdf & X2 & XB1 & _).
  destruct (extends_exists m D (un_types false false) values _ _ (s_U (x_ns (r_x s2))) F Hb Hh2) as [u Hext].
  exists O, s0, vs, ps, fs, s, s2, rhs0, s1, b, u. do 2 eexists.
  split; [exact HI|]. split; [exact Hk|]. split; [exact Ha|]. split; [|split; [exact Hext|split; [exact (initial_files m D P _ _ Hs Hb name bodies Hbo pr "out" ["cylinder"%string] eq_refl _ _ _ _ _ _ HI)|exact Ewr]]].
  cbv zeta. set (X := r_ops s2) in *. split; [exact X1|].
  set (U1 := vs (s_U (x_ns (r_x s))) (vaxpy rhs0 1 (mvec nf (di_H X) (x_f (r_x s))))) in *.
  assert (EU1 : forall id f p, nthZ (packed_layout (m_dim m) D) id = Some (f, p) -> U1 id = osc_velocity 1 Um t 0 0 f) by (intros id f p Hid; unfold U1, vs; now rewrite Hid).
  destruct (extra_inv m D P _ _ _ _ _ EX) as (E & H & BN & EI & _ & EXs). assert (EE : di_E X = E) by (now rewrite EXs).
  split; [|split; [exact X2|]].
  - intros row Hr. unfold fs at 1. replace (mvec nf (di_EBNH X) (fun _ => 0) row) with 0 by (unfold mvec; rewrite zsum_zero; [reflexivity|intros; ring]).
    pose proof (ok_at m D bodies (pos t) Hbo Hsp) as Hbo'.
    assert (Hr' : (0 <= row < lenZ (body_layout (nranks D) (m_dim m) (map fst (bodies_at bodies (pos t)))))%Z)
      by (rewrite (body_layout_len (nranks D) (m_dim m) _ (proj1 Hbo')); rewrite at_fst by exact L; exact Hr).
    destruct (nthZ_in_range _ _ Hr') as [[[b' i'] c'] Er]. pose proof (nthZ_In _ _ _ Er) as Hin. apply body_layout_In in Hin; [|exact (proj1 Hbo')].
    destruct Hin as (bo & Ebo & Hi' & Hc'). rewrite nthZ_map in Ebo. destruct (nthZ (bodies_at bodies (pos t)) b') as [bc|] eqn:Ebc; [|discriminate]. injection Ebo as <-.
    destruct Hbo' as [Hok' Hf']. pose proof Hf' as Hf2. rewrite Forall_forall in Hf2. destruct (Hf2 bc (nthZ_In _ _ _ Ebc)) as [Lc _].
    destruct (nthZ_in_range (snd bc) i') as [Y EY]; [lia|]. assert (Hl : located (bodies_at bodies (pos t)) b' i' Y) by (exists bc; auto).
    assert (EV : mvec (n_velocity m) E U1 row = osc_velocity 1 Um t 0 0 c').
    { rewrite (interpolation_exact m D unit_h B0 name (bodies_at bodies (pos t)) _ _ _ E H row b' i' c' Y (osc_velocity 1 Um t 0 0) (fun _ _ => 0) U1 K w Hs (uniform_is_around m D unit_h w _ Hs Hu) (conj Hok' Hf') HK Hb HB0 Hw EI Er Hl).
      - unfold affine. rewrite zsum_zero by (intros; ring). ring.
      - destruct (HL _ _ _ _ Hl) as (x & y & -> & Hx & Hy). assert (radius name <= 2) by (destruct (getKernel_cases _ _ _ HK) as [(_ & _ & _ & ->)|(_ & _ & _ & ->)]; lra).
        intros d Hdd. unfold m in *. rewrite un_dim in Hdd. destruct (un_box false false d) as [-> ->]. unfold unit_h. assert (d = 0 \/ d = 1)%Z as [->| ->] by lia; rewrite ?xc0, ?xc1; lra.
      - intros id f p Hid. rewrite (EU1 id f p Hid). unfold affine. rewrite zsum_zero by (intros; ring). ring. }
    rewrite at_fst in Er by exact L. unfold r_assembleRHSForces, vscale. rewrite EE, EV, (HV row b' i' c' Er). unfold osc_velocity. ring.
  - intros i Hi. unfold ps at 1. replace (mvec (n_pressure m) (o_DBNG O) (fun _ => 0) i) with 0 by (unfold mvec; rewrite zsum_zero; [reflexivity|intros; ring]).
    destruct (r_init_inv m D P _ _ Hs Hb name bodies _ _ _ _ _ _ HI) as (B0' & _ & _ & HB0' & EO & _).
    destruct (createOperators_inv _ _ _ _ _ EO) as (d & g & l & BN' & Ed & _ & _ & _ & EOps). assert (EoD : o_D O = d) by (now rewrite EOps).
    unfold assembleRHSPoisson in X2. apply bind_ok_inv in X2. destruct X2 as (cc & Ec & X2). change (p_refp P) with false in X2. cbv iota in X2. injection X2 as <-. rewrite EoD in *.
    pose proof (bc_call_inv m D (un_types false false) values _ _ _ _ F Hb Hh1 XB1) as HB1. rewrite <- app_assoc in HB1.
    pose proof (uniform_correction m D (un_types false false) values (osc_velocity 1 Um t 0 0) U1 U0 (h1 ++ [OpEqs (s_U (x_ns (r_x s))) (p_dt P)]) B0' (s_bc s1) d cc Hs Hb Hmin) as UC.
    specialize (UC ltac:(intros f loc Hf Hl Hp; left; split; [unfold un_types; destruct (loc <? 2)%Z; reflexivity|reflexivity]) EU1 HB0' HB1 Ed Ec i Hi).
    unfold vaxpy. rewrite (mvec_ext _ _ (entry (op_log d)) _ U1).
    + lra.
    + reflexivity.
    + intros j Hj. rewrite Xdf. unfold fs, mvec. rewrite zsum_zero by (intros; ring). lra.
Qed.

(** A point that has moved: the two files of the restart differ there. *)
Example oscillating_cylinder_has_moved : osc_pos 1 (osc_Am 1 1) [[4; 4]] (1 / 4) <> [[[4; 4]]].
Proof.
  intros H. apply (f_equal (fun l => xc (hd [] (hd [] l)) 0)) in H. cbn [osc_pos map hd] in H. rewrite !xc0 in H.
  replace (2 * PI * 1 * (1 / 4)) with (PI / 2) in H by field. rewrite sin_PI2 in H. assert (HP : 3 < PI) by (pose proof PI2_3_2; lra).
  assert (0 < osc_Am 1 1); [|lra]. unfold osc_Am, Rdiv. rewrite !Rmult_1_l. apply Rinv_0_lt_compat. lra.
Qed.
