(** The total momentum along runs of the solvers. *)
From Coq Require Import Lia ZifyBool String List.
Import ListNotations.
From Verif Require Import Prelude ZSum RSum TypesModel GridModel GridSpec GridProof MeshProof
  IndexModel IndexSpec IndexProof BoundaryModel BoundarySpec BoundaryProof OperatorModel OperatorSpec OperatorProof BStateProof LapProof DivProof GradProof
  AdjProof SymProof MatModel BnModel NSModel NSSpec NSProof NSPin NSTotal BnSpec BnProof LinAlg UniqueProof ConvModel ConvSpec
  EnergySpec EnergyProof EnergyRun DriverModel DriverSpec BodyModel BodySpec DeltaModel DeltaSpec DeltaProof DeltaSum DeltaProps IbpmModel IbpmSpec IbpmProof IbpmStep IbpmDec IbpmMove
  IbOutModel IbOutSpec IbOutLines IbOutDrive IbOutProof IbOutDec IbOutBalance MomProof.
Local Open Scope R_scope.

(** * Sums over the lines of a file *)
Lemma firstn_succ {A} (l : list A) n x : nth_error l n = Some x -> firstn (S n) l = firstn n l ++ [x].
Proof. revert n. induction l as [|a l IH]; intros [|n] H; cbn in *; try discriminate; [injection H as ->; reflexivity|]. now rewrite <- (IH n H). Qed.
Lemma lines_sum {St} (step : St -> res St) (mu : St -> R) (phi : list R -> R) dt (line : St -> list R -> Prop) s1 ls :
  (forall k s s' l, run_steps step k s1 = Ok s -> step s = Ok s' -> line s' l -> mu s' = mu s - dt * phi l) ->
  (forall k l, nthZ ls k = Some l -> exists sk, run_steps step (Z.to_nat (k + 1)) s1 = Ok sk /\ line sk l) ->
  forall n s, (n <= List.length ls)%nat -> run_steps step n s1 = Ok s -> mu s = mu s1 - dt * sumR phi (firstn n ls).
Proof.
  intros Hstep Hls. induction n as [|n IH]; intros s Hn Hs.
  - injection Hs as <-. cbn [firstn]. unfold sumR. cbn. ring.
  - pose proof Hs as Hs'. cbn [run_steps] in Hs. apply bind_ok_inv in Hs. destruct Hs as (s' & Es & Ea).
    destruct (nth_error ls n) as [l|] eqn:El; [|apply nth_error_None in El; lia].
    assert (Ez : nthZ ls (Z.of_nat n) = Some l) by (unfold nthZ; replace (Z.of_nat n <? 0)%Z with false by lia; rewrite Nat2Z.id; exact El).
    destruct (Hls _ _ Ez) as (sk & Ek & Hl). replace (Z.to_nat (Z.of_nat n + 1)) with (S n) in Ek by lia. rewrite Hs' in Ek. injection Ek as <-.
    rewrite (Hstep n s' s l Es Ea Hl), (IH s' ltac:(lia) Es).
    rewrite (firstn_succ ls n l El), sumR_app. unfold sumR at 3. cbn. ring.
Qed.

Section Run.
Variables (m : mesh) (D : dec) (P : nspar) (types : Z -> Z -> bctype) (values : Z -> Z -> R) (f : Z).
Hypothesis Hset : mesh_setup m D.
Hypothesis Hb : bc_fits m types.
Hypothesis Hper : forall d, (0 <= d < m_dim m)%Z -> periodic_dir m d = true.
Hypothesis Hmin : periodic_min m 3.
Hypothesis Hf : (0 <= f < m_dim m)%Z.
Hypotheses (Hdt : 0 < p_dt P) (Hc : 0 <= p_dimp P * p_nu P).
Let F : mfacts m D := setup_facts _ _ Hset.
Local Notation nv := (n_velocity m).
Local Notation ell := (integral m D f).

Lemma quiet_start l : forall v, In v (map (fun _ : R => (fun _ => 0) : vec) l) -> ell v = 0.
Proof. intros v Hv. apply in_map_iff in Hv. destruct Hv as (_ & <- & _). apply ell_zero. Qed.

(** * The Navier-Stokes solver *)
Lemma ns_momentum t0 n0 U0 p0 O s0 vs ps k s : ns_init m D P types values t0 n0 U0 p0 = Ok (O, s0) ->
  exact_solver nv (o_A O) vs -> ns_steps m D P O (convection m D) vs ps k s0 = Ok s ->
  quiet m D f s /\ ell (s_U s) = ell U0.
Proof.
  intros HI Hv. revert s. induction k as [|k IH]; intros s Hs.
  - injection Hs as <-. destruct (ns_init_inv _ _ _ _ _ _ _ _ _ _ _ F Hb HI) as (B & _ & _ & ->). split; [split; apply quiet_start|reflexivity].
  - pose proof Hs as Hs'. cbn [ns_steps] in Hs. apply bind_ok_inv in Hs. destruct Hs as (s' & Es & Ea). destruct (IH s' Es) as [Q E].
    destruct (steps_boundary _ _ _ _ _ _ _ _ _ _ _ _ _ _ _ _ F Hb HI Es) as (h1 & HB).
    destruct (ns_init_inv _ _ _ _ _ _ _ _ _ _ _ F Hb HI) as (B & HB0 & EO & _).
    destruct (createOperators_inv _ _ _ _ _ EO) as (d & g & l & BN & Ed & Eg & El & EB & EOO).
    rewrite (createGradient_ok m D false F) in Eg. injection Eg as <-. rewrite (createLaplacian_ok m D types values [OpICs U0] B F Hb HB0) in El. injection El as <-.
    destruct (step_momentum m D types values f Hset Hb Hper Hmin Hf [OpICs U0] (ics_one U0) (n_pressure m) P O BN h1 (assembleRHSPoisson m D P O) vs ps s' s Hdt Hc) as [Q' E']; auto;
      try (rewrite EOO; reflexivity).
    split; [exact Q'|]. rewrite E', E. replace (o_G O) with (entry (asm_ins (nranks D) (grad_rows m D false))) by (rewrite EOO; reflexivity).
    rewrite (ell_grad m D types values f Hset Hb Hper Hmin [OpICs U0] (ics_one U0)). ring.
Qed.

(** * Bodies *)
Variables (name : string) (bodies : list (body * list (list R))).
Hypothesis Hbo : bodies_ok m D bodies.

Lemma ib_momentum t0 n0 U0 p0 O s0 vs ps k s : ib_init m D P types values name bodies t0 n0 U0 p0 = Ok (O, s0) ->
  exact_solver nv (o_A (ib_ns O)) vs -> run_steps (ib_advance m D P O (convection m D) vs ps) k s0 = Ok s ->
  quiet m D f s /\ forall s2, ib_advance m D P O (convection m D) vs ps s = Ok s2 ->
    exists B E H, boundary_after m D types values [OpICs U0] B /\ ib_operators m D B name bodies = Ok (E, H) /\
      ell (s_U s2) = ell (s_U s) + p_dt P * ell (mvec (n_forces m bodies) H (nest_sub (ib_lay O) 1 (s_p s2))).
Proof.
  intros HI Hv.
  assert (Hstep : forall k s s2, run_steps (ib_advance m D P O (convection m D) vs ps) k s0 = Ok s -> quiet m D f s -> ib_advance m D P O (convection m D) vs ps s = Ok s2 ->
    quiet m D f s2 /\ exists B E H, boundary_after m D types values [OpICs U0] B /\ ib_operators m D B name bodies = Ok (E, H) /\
      ell (s_U s2) = ell (s_U s) + p_dt P * ell (mvec (n_forces m bodies) H (nest_sub (ib_lay O) 1 (s_p s2)))).
  { intros j s' s2 Es Q Ea.
    destruct (ib_steps_boundary _ _ _ _ _ _ _ Hset Hb _ _ _ _ _ _ _ _ _ _ _ HI Es) as (h1 & HB).
    destruct (ib_init_inv m D P types values name bodies Hset Hb _ _ _ _ _ _ HI) as (B & HB0 & EO & _).
    destruct (ib_createOperators_inv m D P name bodies _ _ EO) as (d & g & l & E & H & BN & Ed & Eg & El & EE & EB & EOO). cbv zeta in EOO.
    rewrite (createGradient_ok m D false F) in Eg. injection Eg as <-. rewrite (createLaplacian_ok m D types values [OpICs U0] B F Hb HB0) in El. injection El as <-.
    destruct (step_momentum m D types values f Hset Hb Hper Hmin Hf [OpICs U0] (ics_one U0) (ib_n O) P (ib_ns O) BN h1 (ib_assembleRHSPoisson m D P O) vs ps s' s2 Hdt Hc) as [Q' E']; auto;
      try (rewrite EOO; reflexivity).
    split; [exact Q'|]. exists B, E, H. split; [exact HB0|]. split; [exact EE|]. rewrite E'.
    replace (ib_n O) with (n_pressure m + n_forces m bodies)%Z by (rewrite EOO; reflexivity).
    replace (ib_lay O) with (nest_layout (nranks D) (pressure_l D) (bp_nLclAllProcs (m_dim m) (map fst bodies))) by (rewrite EOO; reflexivity).
    replace (o_G (ib_ns O)) with (nest_cols (nest_layout (nranks D) (pressure_l D) (bp_nLclAllProcs (m_dim m) (map fst bodies))) (entry (asm_ins (nranks D) (grad_rows m D false))) (mscale (-1) H)) by (rewrite EOO; reflexivity).
    rewrite (ell_ext m D f (mvec (n_pressure m + n_forces m bodies) _ (s_p s2))
      (vaxpy (mvec (n_pressure m) (entry (asm_ins (nranks D) (grad_rows m D false))) (nest_sub (nest_layout (nranks D) (pressure_l D) (bp_nLclAllProcs (m_dim m) (map fst bodies))) 0 (s_p s2)))
         (-1) (mvec (n_forces m bodies) H (nest_sub (nest_layout (nranks D) (pressure_l D) (bp_nLclAllProcs (m_dim m) (map fst bodies))) 1 (s_p s2))))).
    - rewrite ell_axpy, (ell_grad m D types values f Hset Hb Hper Hmin [OpICs U0] (ics_one U0)). ring.
    - intros i Hi. rewrite (nest_col_mvec m D bodies Hset Hbo). unfold vaxpy. f_equal. unfold mvec, mscale, zsum. rewrite <- sumR_scal. apply sumR_ext. intros; ring. }
  intros Hs. assert (Q : quiet m D f s).
  { revert s Hs. induction k as [|k IH]; intros s Hs.
    - injection Hs as <-. destruct (ib_init_inv m D P types values name bodies Hset Hb _ _ _ _ _ _ HI) as (B & _ & _ & ->). split; apply quiet_start.
    - cbn [run_steps] in Hs. apply bind_ok_inv in Hs. destruct Hs as (s' & Es & Ea). exact (proj1 (Hstep k s' s Es (IH s' Es) Ea)). }
  split; [exact Q|]. intros s2 Ea. exact (proj2 (Hstep k s s2 Hs Q Ea)).
Qed.

(** The decoupled solvers: a step with the operators [X] of any bodies. *)
Lemma dec_step U0 B0 O B' X bds h1 rhs_f vs ps fs x x2 : boundary_after m D types values [OpICs U0] B0 -> createOperators m D B0 P = Ok O ->
  createExtraOperators m D B' P O name bds = Ok X ->
  boundary_after m D types values ([OpICs U0] ++ h1) (s_bc (x_ns x)) -> quiet m D f (x_ns x) -> exact_solver nv (o_A O) vs ->
  d_advance m D P O X (n_forces m bds) (convection m D) rhs_f vs ps fs x = Ok x2 ->
  quiet m D f (x_ns x2) /\ ell (s_U (x_ns x2)) = ell (s_U (x_ns x)) + p_dt P * ell (mvec (n_forces m bds) (di_H X) (x_f x2)).
Proof.
  intros HB0 EO EX HB Q Hv Ha. destruct (createOperators_inv _ _ _ _ _ EO) as (d & g & l & BN & Ed & Eg & El & EB & EOO).
  rewrite (createGradient_ok m D false F) in Eg. injection Eg as <-. rewrite (createLaplacian_ok m D types values [OpICs U0] B0 F Hb HB0) in El. injection El as <-.
  destruct (extra_inv m D P _ _ _ _ _ EX) as (E & H & BN' & EI & EB' & EXX).
  assert (BN' = BN) as -> by (rewrite EOO in EB'; cbn [o_L] in EB'; rewrite EB in EB'; now injection EB').
  apply (dec_momentum m D types values f Hset Hb Hper Hmin Hf [OpICs U0] (ics_one U0) P O X BN (n_forces m bds) h1 rhs_f vs ps fs x x2 Hdt Hc); auto;
    try (rewrite EOO; reflexivity); rewrite EXX; reflexivity.
Qed.
Lemma d_momentum t0 n0 U0 p0 O X x0 rhs_f vs ps fs k x : d_init m D P types values name bodies t0 n0 U0 p0 = Ok (O, X, x0) ->
  exact_solver nv (o_A O) vs -> run_steps (d_advance m D P O X (n_forces m bodies) (convection m D) rhs_f vs ps fs) k x0 = Ok x ->
  quiet m D f (x_ns x) /\ forall x2, d_advance m D P O X (n_forces m bodies) (convection m D) rhs_f vs ps fs x = Ok x2 ->
    quiet m D f (x_ns x2) /\ ell (s_U (x_ns x2)) = ell (s_U (x_ns x)) + p_dt P * ell (mvec (n_forces m bodies) (di_H X) (x_f x2)).
Proof.
  intros HI Hv Hs. destruct (d_init_inv m D P types values Hset Hb _ _ _ _ _ _ _ _ _ HI) as (B & HB & EO & EX & E0).
  assert (Hstep : forall k x x2, run_steps (d_advance m D P O X (n_forces m bodies) (convection m D) rhs_f vs ps fs) k x0 = Ok x -> quiet m D f (x_ns x) ->
    d_advance m D P O X (n_forces m bodies) (convection m D) rhs_f vs ps fs x = Ok x2 ->
    quiet m D f (x_ns x2) /\ ell (s_U (x_ns x2)) = ell (s_U (x_ns x)) + p_dt P * ell (mvec (n_forces m bodies) (di_H X) (x_f x2))).
  { intros j x' x2 Es Q Ea. destruct (d_steps_boundary m D P types values Hset Hb _ _ _ _ _ _ _ _ _ _ _ _ _ _ _ _ _ HI Es) as ((h1 & Hh) & _).
    exact (dec_step U0 B O B X bodies h1 rhs_f vs ps fs x' x2 HB EO EX Hh Q Hv Ea). }
  assert (Q : quiet m D f (x_ns x)).
  { revert x Hs. induction k as [|k IH]; intros x Hs.
    - injection Hs as <-. rewrite E0. split; apply quiet_start.
    - cbn [run_steps] in Hs. apply bind_ok_inv in Hs. destruct Hs as (s' & Es & Ea). exact (proj1 (Hstep k s' x Es (IH s' Es) Ea)). }
  split; [exact Q|]. intros x2 Ea. exact (Hstep k x x2 Hs Q Ea).
Qed.
Lemma r_momentum mo pos vel t0 n0 U0 p0 O s0 vs ps fs k s : prescribed m D bodies mo pos vel ->
  r_init m D P types values name bodies t0 n0 U0 p0 = Ok (O, s0) ->
  exact_solver nv (o_A O) vs -> run_steps (r_advance m D P O name mo (convection m D) vs ps fs) k s0 = Ok s ->
  quiet m D f (x_ns (r_x s)) /\ forall s2, r_advance m D P O name mo (convection m D) vs ps fs s = Ok s2 ->
    quiet m D f (x_ns (r_x s2)) /\
    (exists t, r_bodies s2 = bodies_at bodies (pos t)) /\
    exists B E H h1, boundary_after m D types values ([OpICs U0] ++ h1) B /\ ib_operators m D B name (r_bodies s2) = Ok (E, H) /\
      ell (s_U (x_ns (r_x s2))) = ell (s_U (x_ns (r_x s))) + p_dt P * ell (mvec (n_forces m (r_bodies s2)) H (x_f (r_x s2))).
Proof.
  intros Hmo HI Hv Hs. destruct (r_init_inv m D P types values Hset Hb name bodies _ _ _ _ _ _ HI) as (B & X & x0 & HB & EO & EX & E0 & E1 & _).
  destruct (d_init_inv m D P types values Hset Hb _ _ _ _ _ _ _ _ _ EX) as (B1 & _ & _ & _ & Ex0).
  assert (Hstep : forall k s s2, run_steps (r_advance m D P O name mo (convection m D) vs ps fs) k s0 = Ok s -> quiet m D f (x_ns (r_x s)) ->
    r_advance m D P O name mo (convection m D) vs ps fs s = Ok s2 ->
    quiet m D f (x_ns (r_x s2)) /\
    (exists t, r_bodies s2 = bodies_at bodies (pos t)) /\
    exists B E H h1, boundary_after m D types values ([OpICs U0] ++ h1) B /\ ib_operators m D B name (r_bodies s2) = Ok (E, H) /\
      ell (s_U (x_ns (r_x s2))) = ell (s_U (x_ns (r_x s))) + p_dt P * ell (mvec (n_forces m (r_bodies s2)) H (x_f (r_x s2)))).
  { intros j s' s2 Es Q Ea. destruct (r_steps m D P types values Hset Hb name bodies mo pos vel Hmo _ _ _ _ _ _ _ _ _ _ _ _ HI Es) as (Hsh & (h1 & Hh) & _).
    destruct (r_advance_inv m D P name bodies mo pos vel Hmo _ _ _ _ O s' s2 Hsh Ea) as (X1 & X2 & X3 & X4 & X5).
    destruct (dec_step U0 B O _ _ (r_bodies s2) h1 _ vs ps _ (r_x s') (r_x s2) HB EO X3 Hh Q Hv X5) as [Q' E'].
    split; [exact Q'|]. split; [eauto|]. destruct (extra_inv m D P _ _ _ _ _ X3) as (E & H & BN & EI & _ & EXX).
    exists (s_bc (x_ns (r_x s'))), E, H, h1. split; [exact Hh|]. split; [exact EI|]. rewrite EXX in E'. exact E'. }
  assert (Q : quiet m D f (x_ns (r_x s))).
  { revert s Hs. induction k as [|k IH]; intros s Hs.
    - injection Hs as <-. rewrite E1. cbn [r_x]. rewrite Ex0. split; apply quiet_start.
    - cbn [run_steps] in Hs. apply bind_ok_inv in Hs. destruct Hs as (s' & Es & Ea). exact (proj1 (Hstep k s' s Es (IH s' Es) Ea)). }
  split; [exact Q|]. intros s2 Ea. exact (Hstep k s s2 Hs Q Ea).
Qed.

(** * The forces file *)
Variables (h : Z -> R) (K : kernel) (w : Z).
Hypotheses (Hu : uniform m h) (HK : getKernel name = Ok (K, w)) (Hw : wide_enough m w).

Lemma ell_uniform y : ell y = zsum (fun id => if (component m D id =? f)%Z then cell_volume m h * y id else 0) 0 nv.
Proof.
  unfold integral. apply zsum_ext. intros i Hi. destruct (velocity_ids m D i F Hi) as (g & p & E). unfold component. rewrite E.
  destruct (g =? f)%Z eqn:Eg; [|reflexivity]. replace g with f in E by lia. rewrite <- (area_width m D h i f p Hset Hu E).
  destruct (velocity_row m D i f p F E) as (_ & Hp & _). now rewrite (EnergyProof.volume_area m D Hset f p Hf Hp).
Qed.
(** The force of a line: its columns of direction f. *)
Definition recorded (bds : list (body * list (list R))) (l : list R) : R := zsum (fun b => column l (1 + b * m_dim m + f)) 0 (lenZ bds).

Lemma recorded_force bds hist B E H t fv l : bodies_ok m D bds -> boundary_after m D types values hist B ->
  (forall b i X, located bds b i X -> clear m h (radius name) X) ->
  ib_operators m D B name bds = Ok (E, H) -> reported m D bds t fv l ->
  ell (mvec (n_forces m bds) H fv) = - recorded bds l.
Proof.
  intros Hbd HB Hcl EE Hr. rewrite ell_uniform.
  exact (balance m D h B name bds types values hist E H K w t fv l f Hset (uniform_is_around m D h w bds Hset Hu) Hbd HK Hb HB Hw Hcl EE Hr Hf).
Qed.
End Run.
