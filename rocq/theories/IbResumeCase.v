(** With walls at rest every system of a new or resumed immersed-boundary
    program has a solution. *)
From Coq Require Import Lia ZifyBool String List.
Import ListNotations.
From Verif Require Import Prelude ZSum RSum TypesModel GridModel GridSpec GridProof MeshProof
  IndexModel IndexSpec IndexProof BoundaryModel BoundarySpec BoundaryProof OperatorModel OperatorSpec OperatorProof BStateProof LapProof DivProof GradProof
  AdjProof SymProof MatModel BnModel NSModel NSSpec NSProof NSTotal NSPin BnSpec BnProof LinAlg UniqueProof ConvModel ConvSpec ConvProof EnergySpec EnergyProof EnergyRun
  NameModel NameProof DriverModel DriverSpec DriverProof DriveProof RestartProof DecSpec DecProof DecConv ResumeSpec ResumeProof
  BodyModel BodySpec BodyProof BodyUse DeltaModel DeltaSpec DeltaSum IbpmModel IbpmSpec IbpmProof IbpmStep IbpmDec IbpmMove
  IbOutModel IbOutSpec IbOutDrive IbOutSim IbOutLines IbOutProof IbOutDec IbOutTotal IndepSpec IndepProof IndepRun IndepCase IbGridSpec IbGridProof IbGridRun IbGridProps
  IbResumeSpec IbResumeDrive IbResumeProof IbResumeMain IbResumeTotal.
Local Open Scope R_scope.

Section Programs.
Context (m : mesh) (D : dec) (P : nspar) (types : Z -> Z -> bctype) (values : Z -> Z -> R) (name : string) (bodies : list (body * list (list R))) (t0 : R) (U0 p0 : vec).
Hypotheses (Hset : mesh_setup m D) (Hb : bc_fits m types) (Hbo : bodies_ok m D bodies) (Hmin : periodic_min m 3) (Hneu : no_normal_neumann m types) (Hu : undriven m types values).
Hypotheses (Hbn : p_bn P = 1%Z) (Hdt : 0 < p_dt P) (Hc : 0 <= p_dimp P * p_nu P).
Context (vs ps : vec -> vec -> vec) (conf : ioconf) (d : disk) (k : nat).
Let F := setup_facts _ _ Hset.
Local Notation conv := (convection m D).
Local Notation nf := (n_forces m bodies).
Definition within_history (s : nsstate) : Prop := exists h1, boundary_after m D types values ([OpICs U0] ++ h1) (s_bc s).
Lemma history_read p dd s s' : within_history s -> read_restart m D p dd s = Ok s' -> within_history s'.
Proof.
  intros (h & Hh) E. destruct (read_inv _ _ _ _ _ _ E) as (_ & _ & _ & EB). exists (h ++ [OpICs (s_U s')]). rewrite app_assoc. exact (bc_call_inv m D types values _ _ _ _ F Hb Hh EB).
Qed.
Lemma history_d_read n p dd x x' : within_history (x_ns x) -> d_read_restart m D n p dd x = Ok x' -> within_history (x_ns x').
Proof.
  intros Hs ER. unfold d_read_restart in ER. apply bind_ok_inv in ER. destruct ER as (s' & E & ER). apply bind_ok_inv in ER. destruct ER as (f & _ & ER). injection ER as <-. exact (history_read _ _ _ _ Hs E).
Qed.

Lemma decoupled_program_exact fs :
  (forall n O X x0, d_init m D P types values name bodies t0 n U0 p0 = Ok (O, X, x0) -> exact_solver (n_velocity m) (o_A O) vs /\ exact_solver (n_pressure m) (o_DBNG O) ps /\ exact_solver nf (di_EBNH X) fs) ->
  exact_decoupled_program conf m D P types values name bodies t0 U0 p0 vs ps fs d k.
Proof.
  intros HS O X x0 x1 w HI HIO. destruct (HS _ _ _ _ HI) as (Hv & Hp & Hf). destruct (d_init_inv m D P types values Hset Hb _ _ _ _ _ _ _ _ _ HI) as (B0 & HB0 & _ & _ & Ex0).
  assert (H0 : within_history (x_ns x0)) by (rewrite Ex0; exists []; exact HB0).
  assert (H1 : within_history (x_ns x1)).
  { unfold io_initial_with in HIO. destruct (x_ite x0 =? 0)%Z; [injection HIO as <- _; exact H0|]. apply bind_ok_inv in HIO. destruct HIO as (x' & ER & HIO). injection HIO as <- _. exact (history_d_read _ _ _ _ _ H0 ER). }
  assert (Q : forall j x, run_steps (d_advance m D P O X nf conv (d_assembleRHSForces m X) vs ps fs) j x1 = Ok x -> within_history (x_ns x)).
  { induction j as [|j IH]; cbn [run_steps]; intros x E; [injection E as <-; exact H1|]. apply bind_ok_inv in E. destruct E as (y & Ey & E). destruct (IH y Ey) as (h1 & Hh).
    exact (d_advance_boundary m D P types values Hset Hb _ _ _ _ _ _ _ _ _ _ _ _ Hh E). }
  intros j x _ E. pose proof HI as HI'. unfold d_init in HI'. apply bind_ok_inv in HI'. destruct HI' as ([O' a0] & HN & HI'). apply bind_ok_inv in HI'. destruct HI' as (X' & EX & HI'). injection HI' as -> -> _.
  apply (decoupled_exact m D P types values t0 _ U0 p0 O a0 Hset Hb Hmin Hneu Hu Hbn Hdt Hc HN conv vs ps Hv Hp nf X _ fs x (Q j x E)).
  exact (fixed_forces m D P name bodies O Hset Hbo Hbn Hdt _ X fs EX Hf).
Qed.

Lemma moving_program_exact mo pos vel fs : prescribed m D bodies mo pos vel ->
  (forall n O a t B X, r_init m D P types values name bodies t0 n U0 p0 = Ok (O, a) -> (exists hist, boundary_after m D types values hist B) -> createExtraOperators m D B P O name (bodies_at bodies (pos t)) = Ok X -> forces_felt m nf X) ->
  (forall n O a, r_init m D P types values name bodies t0 n U0 p0 = Ok (O, a) -> exact_solver (n_velocity m) (o_A O) vs /\ exact_solver (n_pressure m) (o_DBNG O) ps) -> (forall A, exact_solver nf A (fs A)) ->
  exact_moving_program conf m D P types values name bodies mo t0 U0 p0 vs ps fs d k.
Proof.
  intros Hmo Hff HS Hf O s0 s1 w HI HIO. destruct (HS _ _ _ HI) as (Hv & Hp).
  destruct (r_init_inv m D P types values Hset Hb name bodies _ _ _ _ _ _ HI) as (B0 & X & x0 & HB0 & _ & ED & _ & Es0 & _).
  destruct (d_init_inv m D P types values Hset Hb _ _ _ _ _ _ _ _ _ ED) as (B0' & HB0' & _ & _ & Ex0).
  pose proof (v_inv0 m D P types values name bodies t0 U0 p0 Hset Hb _ _ _ HI) as I0.
  assert (H0 : within_history (x_ns (r_x s0))) by (rewrite Es0; cbn [r_x]; rewrite Ex0; exists []; exact HB0').
  assert (H1 : within_history (x_ns (r_x s1)) /\ v_inv m D P types values bodies s1).
  { unfold io_initial_with in HIO. destruct (r_ite s0 =? 0)%Z; [injection HIO as <- _; auto|]. apply bind_ok_inv in HIO. destruct HIO as (s' & ER & HIO). injection HIO as <- _.
    split; [|exact (v_invR m D P types values bodies Hset Hb _ _ _ _ I0 ER)]. destruct (v_read_inv m D _ _ _ _ ER) as [E _]. exact (history_d_read _ _ _ _ _ H0 E). }
  destruct H1 as [H1 I1].
  assert (Q : forall j s, run_steps (r_advance m D P O name mo conv vs ps fs) j s1 = Ok s -> within_history (x_ns (r_x s))).
  { induction j as [|j IH]; cbn [run_steps]; intros s E; [injection E as <-; exact H1|]. apply bind_ok_inv in E. destruct E as (y & Ey & E). destruct (IH y Ey) as (h1 & Hh).
    destruct (v_steps m D P types values name bodies conv vs ps Hset Hb mo pos vel fs Hmo O j s1 y I1 Ey) as ([_ Sh] & _).
    destruct (r_advance_inv m D P name bodies mo pos vel Hmo conv vs ps fs O y s Sh E) as (_ & _ & _ & _ & X5).
    exact (d_advance_boundary m D P types values Hset Hb O U0 h1 _ _ _ _ _ _ _ _ _ Hh X5). }
  intros j s _ E u Eu. destruct (v_steps m D P types values name bodies conv vs ps Hset Hb mo pos vel fs Hmo O j s1 s I1 E) as ([_ Sh] & _). destruct (Q j s E) as (h1 & Hh1).
  unfold d_init in ED. apply bind_ok_inv in ED. destruct ED as ([O' a0] & HN & ED). apply bind_ok_inv in ED. destruct ED as (X' & _ & ED). injection ED as -> _ _.
  set (t := s_t (x_ns (r_x s)) + p_dt P) in *. destruct (move_inv m D P name bodies mo pos vel Hmo O t s u Sh Eu) as (Y1 & Yb & Yv & YX & Ys).
  assert (En : n_forces m (bodies_at bodies (pos t)) = nf) by (apply forces_at; exact (shape_len _ _ (proj1 (Hmo t)))).
  assert (Hbo' : bodies_ok m D (bodies_at bodies (pos t))) by exact (ok_at m D bodies (pos t) Hbo (proj1 (Hmo t))).
  rewrite Yb in *. rewrite En.
  apply (decoupled_exact m D P types values t0 _ U0 p0 O a0 Hset Hb Hmin Hneu Hu Hbn Hdt Hc HN conv vs ps Hv Hp nf (r_ops u)).
  - rewrite Y1. exists h1. exact Hh1.
  - intros U g. rewrite Ys. rewrite <- En. refine (felt_forces m D P name (bodies_at bodies (pos t)) O Hset Hbo' Hbn Hdt _ (r_ops u) _ (fs (di_EBNH (r_ops u))) YX _ _ g).
    + rewrite En. exact (Hff _ _ _ t _ _ HI (ex_intro (fun h => boundary_after m D types values h _) _ Hh1) YX).
    + rewrite En. apply Hf.
Qed.

Lemma coupled_program_exact :
  (forall n O a, ib_init m D P types values name bodies t0 n U0 p0 = Ok (O, a) -> exact_solver (n_velocity m) (o_A (ib_ns O)) vs /\ exact_solver (ib_n O) (o_DBNG (ib_ns O)) ps) ->
  exact_coupled_program conf m D P types values name bodies t0 U0 p0 vs ps d k.
Proof.
  intros HS O s0 s1 w HI HIO. destruct (HS _ _ _ HI) as (Hv & Hp). destruct (ib_init_inv m D P types values name bodies Hset Hb _ _ _ _ _ _ HI) as (B0 & HB0 & _ & Es0).
  assert (H0 : within_history s0) by (rewrite Es0; exists []; exact HB0).
  assert (H1 : within_history s1).
  { unfold io_initial_with in HIO. destruct (s_ite s0 =? 0)%Z; [injection HIO as <- _; exact H0|]. apply bind_ok_inv in HIO. destruct HIO as (s' & ER & HIO). injection HIO as <- _.
    unfold ib_read_restart in ER. apply bind_ok_inv in ER. destruct ER as (y & E & ER). apply bind_ok_inv in ER. destruct ER as (f & _ & ER). injection ER as <-.
    exact (history_read _ _ (with_p (nest_sub (ib_lay O) 0 (s_p s0)) s0) _ H0 E). }
  intros j s _ E. apply (coupled_exact_at m D P types values name bodies t0 _ U0 p0 O s0 Hset Hb Hbo Hmin Hneu Hu Hbn Hdt Hc HI conv vs ps Hv Hp).
  revert s E. induction j as [|j IH]; cbn [run_steps]; intros s E; [injection E as <-; exact H1|]. apply bind_ok_inv in E. destruct E as (y & Ey & E). destruct (IH y Ey) as (h1 & Hh).
  destruct (ib_advance_inv _ _ _ _ _ _ _ _ _ E) as (rhs1 & s2 & b & X1 & _ & B1 & _ & _ & _ & B2 & _).
  exists (h1 ++ [OpEqs (s_U y) (p_dt P)] ++ [OpVals (s_U s)]).
  apply (bc_call_inv m D types values _ _ _ _ F Hb Hh) in B1. apply (bc_call_inv m D types values _ _ _ _ F Hb B1) in B2. rewrite <- !app_assoc in B2. exact B2.
Qed.
End Programs.
