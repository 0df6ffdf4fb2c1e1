(** C66: the immersed-boundary programs from their configuration to their end. *)
From Coq Require Import Ascii String Permutation ZifyBool.
From Verif Require Import Prelude ZSum RSum TypesModel GridModel GridSpec GridProof MeshProof IndexModel IndexSpec BoundaryModel BoundarySpec BoundaryProof
  OperatorModel OperatorSpec MatModel BnModel SolutionModel ConvModel BodyModel BodySpec BodyProps DeltaModel DeltaSpec DeltaProof ProbeModel NSModel NSSpec NameModel DriverModel DriverSpec DriverProps
  IbpmModel IbpmSpec IbpmOsc MoveProps IbOutModel IbOutSpec IbOutProps ConfigModel ConfigSpec ConfigProof ConfigSetup ConfigInit ConfigUse ConfigProps SimProps ProgModel ProgSpec ProgProof ProgRun ProgProps
  IbProgModel IbProgSpec IbProgProof.
Local Open Scope R_scope.
Local Open Scope string_scope.

(** C66. The coupled program runs the simulation of its configuration: it is
    [ib_main], the program of C49-C60, with the simulation of the configuration
    (as C65), the points of the files of the bodies dealt to the processes, and
    the kernel of the configuration. *)
Theorem ibpm_program_runs_configuration : forall rd lx lambdify amgx load np files y axs bcs nu vel pe c wc wi wd bodies kernel,
  proper lx -> documented rd lambdify amgx load np y axs bcs nu vel pe c wc wi wd ->
  describes_bodies lx files (lenZ axs) y bodies -> describes_kernel y kernel ->
  exists m D types values U0 p0 probes,
    simulates rd np y axs bcs nu vel pe c m D types values U0 p0 probes /\ bodies_ok m D (dealt (nranks D) bodies) /\
    forall solver_result probe_ops fuel d,
      ib_program rd lx lambdify amgx load np files solver_result probe_ops fuel (Some y) d =
      ib_main fuel (run_conf c) m D (run_par c nu wc wi wd) types values kernel (dealt (nranks D) bodies) (rc_t c) U0 p0 (probe_ops probes)
        (convection m D) (solver_result (rc_velocity c)) (solver_result (rc_poisson c)) d.
Proof.
  intros * Hlx Hd Hb Hk. destruct (ib_lemma rd lx lambdify amgx load np files y axs bcs nu vel pe c wc wi wd bodies kernel Hlx Hd Hb Hk)
    as (m & D & types & values & U0 & p0 & probes & _ & Hs & Hbo & E & _).
  exists m, D, types, values, U0, p0, probes.
  assert (Hsz : nranks D = np_size np) by (destruct Hs as (_ & _ & _ & Hn & _); unfold nranks, np_size; now rewrite !Hn). rewrite Hsz. auto.
Qed.
Print Assumptions ibpm_program_runs_configuration.

(** C66. The decoupled program, with the solver of the forces. *)
Theorem decoupled_program_runs_configuration : forall rd lx lambdify amgx load np files y axs bcs nu vel pe c wc wi wd bodies kernel fsol,
  proper lx -> documented rd lambdify amgx load np y axs bcs nu vel pe c wc wi wd ->
  describes_bodies lx files (lenZ axs) y bodies -> describes_kernel y kernel -> describes_forces_solver amgx load y fsol ->
  exists m D types values U0 p0 probes,
    simulates rd np y axs bcs nu vel pe c m D types values U0 p0 probes /\ bodies_ok m D (dealt (nranks D) bodies) /\
    forall solver_result probe_ops fuel d,
      d_program rd lx lambdify amgx load np files solver_result probe_ops fuel (Some y) d =
      d_main fuel (run_conf c) m D (run_par c nu wc wi wd) types values kernel (dealt (nranks D) bodies) (rc_t c) U0 p0 (fun x => probe_ops probes (x_ns x))
        (convection m D) (solver_result (rc_velocity c)) (solver_result (rc_poisson c)) (solver_result fsol) d.
Proof.
  intros * Hlx Hd Hb Hk Hf. destruct (ib_lemma rd lx lambdify amgx load np files y axs bcs nu vel pe c wc wi wd bodies kernel Hlx Hd Hb Hk)
    as (m & D & types & values & U0 & p0 & probes & _ & Hs & Hbo & _ & E & _).
  exists m, D, types, values, U0, p0, probes.
  assert (Hsz : nranks D = np_size np) by (destruct Hs as (_ & _ & _ & Hn & _); unfold nranks, np_size; now rewrite !Hn). rewrite Hsz. auto.
Qed.
Print Assumptions decoupled_program_runs_configuration.

(** C66. The oscillating-cylinder program: the points of the only body move as
    x(t) = x(0) - (D KC / 2 pi) sin(2 pi f t), with f, D and KC of the
    configuration. *)
Theorem oscillating_program_runs_configuration : forall rd lx lambdify amgx load np files y axs bcs nu vel pe c wc wi wd name rows kernel fsol f Dc KC,
  proper lx -> documented rd lambdify amgx load np y axs bcs nu vel pe c wc wi wd -> lenZ axs = 2%Z ->
  describes_bodies lx files (lenZ axs) y [(name, rows)] -> describes_kernel y kernel -> describes_forces_solver amgx load y fsol ->
  describes_kinematics rd y f Dc KC ->
  let Am := Dc * KC / (2 * PI) in
  exists m D types values U0 p0 probes mo,
    simulates rd np y axs bcs nu vel pe c m D types values U0 p0 probes /\ bodies_ok m D (dealt (nranks D) [(name, rows)]) /\
    prescribed m D (dealt (nranks D) [(name, rows)]) mo (fun t => [map (fun row => [xc row 0 - Am * sin (2 * PI * f * t); xc row 1]) rows])
      (fun t _ _ d => if (d =? 0)%Z then - (KC * f * Dc) * cos (2 * PI * f * t) else 0) /\
    forall solver_result probe_ops forces_result fuel d,
      osc_program rd lx lambdify amgx load np files solver_result probe_ops forces_result fuel (Some y) d =
      r_main fuel (run_conf c) m D (run_par c nu wc wi wd) types values kernel (dealt (nranks D) [(name, rows)]) mo (rc_t c) U0 p0
        (fun s => probe_ops probes (x_ns (r_x s)))
        (convection m D) (solver_result (rc_velocity c)) (solver_result (rc_poisson c)) (forces_result fsol) d.
Proof.
  intros * Hlx Hd H2 Hb Hk Hf Hki Am. destruct (ib_lemma rd lx lambdify amgx load np files y axs bcs nu vel pe c wc wi wd [(name, rows)] kernel Hlx Hd Hb Hk)
    as (m & D & types & values & U0 & p0 & probes & _ & Hs & Hbo & _ & _ & E).
  assert (Hsz : nranks D = np_size np) by (destruct Hs as (_ & _ & _ & Hn & _); unfold nranks, np_size; now rewrite !Hn).
  assert (H2' : m_dim m = 2%Z) by (destruct Hs as (_ & _ & -> & _); exact H2).
  exists m, D, types, values, U0, p0, probes. eexists. rewrite Hsz. split; [exact Hs|]. split; [exact Hbo|]. split; [|intros; eapply E; eauto].
  destruct (oscillating_cylinder_motion m D f Dc KC (default_body (np_size np) (lenZ rows)) rows H2' Hbo) as (P & _ & EU).
  cbv zeta in P, EU. intros t. destruct (P t) as (P1 & P2 & P3). split; [exact P1|]. split; [exact P2|].
  intros v. destruct (P3 v) as (v' & V1 & V2). exists v'. split; [exact V1|]. unfold holds_velocity, osc_velocity in V2 |- *. rewrite EU in V2. exact V2.
Qed.
Print Assumptions oscillating_program_runs_configuration.

(** C66. New runs (startStep 0) on any documented mesh, with documented kernel,
    at least as many points in each body as processes, and every point inside
    the domain (and, where the code takes a direction to be periodic, its kernel
    too): the coupled and the decoupled program complete, and the forces file
    has a line for each of the nt steps. *)
Theorem ib_programs_complete : forall rd lx lambdify amgx load np files y axs bcs nu vel pe c wc wi wd bodies kernel reach solver_result probe_ops fuel d,
  proper lx -> documented rd lambdify amgx load np y axs bcs nu vel pe c wc wi wd ->
  describes_bodies lx files (lenZ axs) y bodies -> describes_kernel y kernel -> In (kernel, reach) doc_kernels ->
  (forall b X, In b bodies -> In X (snd b) -> kernel_fits axs bcs reach X) ->
  (forall b, In b bodies -> (np 0 * np 1 * np 2 <= lenZ (snd b))%Z) ->
  rc_start c = 0%Z -> rc_nsave c <> 0%Z -> rc_nrestart c <> 0%Z -> (1 <= rc_bn c)%Z -> (rc_nt c <= Z.of_nat fuel)%Z ->
  (exists s2 d2 ls, ib_program rd lx lambdify amgx load np files solver_result probe_ops fuel (Some y) d = Ok (Some (s2, d2, ls)) /\
     forces_lines (rc_nt c) (rc_t c) (rc_dt c) (lenZ bodies) (lenZ axs) ls) /\
  (forall fsol, describes_forces_solver amgx load y fsol ->
   exists x2 d2 ls, d_program rd lx lambdify amgx load np files solver_result probe_ops fuel (Some y) d = Ok (Some (x2, d2, ls)) /\
     forces_lines (rc_nt c) (rc_t c) (rc_dt c) (lenZ bodies) (lenZ axs) ls).
Proof.
  intros rd lx lam amgx load np files y axs bcs nu vel pe c wc wi wd bodies kernel reach sr po fuel d Hlx Hd Hb Hk Hker Hpts Hown H0 Hns Hnr Hbn Hf.
  destruct (ib_lemma rd lx lam amgx load np files y axs bcs nu vel pe c wc wi wd bodies kernel Hlx Hd Hb Hk)
    as (m & D & types & values & U0 & p0 & probes & _ & (Hs & Hfit & Md & Hn & Ha & Ht & _) & Hbo & EI & ED & _).
  assert (Hsz : nranks D = np_size np) by (unfold nranks, np_size; now rewrite !Hn).
  pose proof (doc_dim _ _ _ _ _ _ _ _ _ _ _ _ _ _ _ Hd) as Hdim. pose proof (doc_axes _ _ _ _ _ _ _ _ _ _ _ _ _ _ _ Hd) as Hax.
  destruct (kernel_read kernel reach Hker) as (K & HK).
  destruct (ib_simulations_complete m D (run_par c nu wc wi wd) types values kernel (dealt (np_size np) bodies) (rc_t c) U0 p0 (sr (rc_velocity c)) (sr (rc_poisson c)) (sr (rc_poisson c))
    (mkMotion (fun _ l => Ok l) (fun _ v => Ok v)) (fun _ => []) (fun _ _ _ _ => 0) (fun _ _ b => b) K reach (run_conf c) fuel d) as (CI & _); auto.
  { intros b i X HX. apply dealt_located in HX. destruct HX as (x & Hx & Hi). eapply fits; eauto; [apply (doc_bcs _ _ _ _ _ _ _ _ _ _ _ _ _ _ _ Hd)|]. intros f loc ty v Hin. apply (Ht _ _ _ _ Hin). }
  { intros b bc r Hbb Hr. rewrite Hsz in Hr. eapply (dealt_owned np bodies); eauto. }
  { cbn. lia. }
  assert (CD : forall fsol mon, exists x2 d2 ls, d_main fuel (run_conf c) m D (run_par c nu wc wi wd) types values kernel (dealt (np_size np) bodies) (rc_t c) U0 p0 mon (convection m D)
    (sr (rc_velocity c)) (sr (rc_poisson c)) (sr fsol) d = Ok (Some (x2, d2, ls))).
  { intros fsol mon. destruct (ib_simulations_complete m D (run_par c nu wc wi wd) types values kernel (dealt (np_size np) bodies) (rc_t c) U0 p0 (sr (rc_velocity c)) (sr (rc_poisson c)) (sr fsol)
      (mkMotion (fun _ l => Ok l) (fun _ v => Ok v)) (fun _ => []) (fun _ _ _ _ => 0) (fun _ _ b => b) K reach (run_conf c) fuel d) as (_ & C & _); auto.
      { intros b i X HX. apply dealt_located in HX. destruct HX as (x & Hx & Hi). eapply fits; eauto; [apply (doc_bcs _ _ _ _ _ _ _ _ _ _ _ _ _ _ _ Hd)|]. intros f loc ty v Hin. apply (Ht _ _ _ _ Hin). }
    { intros b bc r Hbb Hr. rewrite Hsz in Hr. eapply (dealt_owned np bodies); eauto. }
    { cbn. lia. } }
  assert (Ln : lenZ (dealt (np_size np) bodies) = lenZ bodies) by (unfold dealt; apply lenZ_map).
  split.
  - destruct (CI (po probes)) as (s2 & d2 & ls & E). exists s2, d2, ls. rewrite EI. split; [exact E|].
    destruct (coupled_forces_file _ _ _ _ _ _ _ _ _ _ _ _ _ _ _ _ _ _ _ _ Hs Hfit Hbo E) as (O & s0 & s1 & w & E1 & E2 & L & Q). split; [exact L|].
    intros k l Hl. destruct (Q k l Hl) as (sk & _ & _ & Et & Rp). apply reported_shape in Rp; [|lia]. destruct Rp as (vals & -> & Lv). exists vals. rewrite Ln, Md in Lv. split; [|exact Lv].
    rewrite Et. f_equal. f_equal. 
    eapply IbpmProof.ib_init_inv in E1; [|eassumption..]. destruct E1 as (B & _ & _ & ->). unfold io_initial_with in E2. cbn [s_ite run_conf c_nstart] in E2. rewrite H0 in E2.
    cbn [Z.eqb] in E2. injection E2 as <- _. reflexivity.
  - intros fsol Hfs. destruct (CD fsol (fun x => po probes (x_ns x))) as (x2 & d2 & ls & E). exists x2, d2, ls. rewrite (ED fsol Hfs). split; [exact E|].
    destruct (decoupled_forces_file _ _ _ _ _ _ _ _ _ _ _ _ _ _ _ _ _ _ _ _ _ Hs Hfit Hbo E) as (O & X & s0 & s1 & w & E1 & E2 & L & Q). split; [exact L|].
    intros k l Hl. destruct (Q k l Hl) as (sk & _ & _ & Et & Rp). apply reported_shape in Rp; [|lia]. destruct Rp as (vals & -> & Lv). exists vals. rewrite Ln, Md in Lv. split; [|exact Lv].
    rewrite Et. f_equal. f_equal.
    apply (IbpmDec.d_init_inv m D _ _ _ Hs Hfit) in E1. destruct E1 as (B & _ & _ & _ & ->). unfold io_initial_with in E2. unfold x_ite in E2. cbn [x_ns s_ite run_conf c_nstart] in E2. rewrite H0 in E2.
    cbn [Z.eqb] in E2. injection E2 as <- _. reflexivity.
Qed.
Print Assumptions ib_programs_complete.

(** C66. The oscillating-cylinder program completes when the points also fit at
    the times of the steps. *)
Theorem oscillating_program_completes : forall rd lx lambdify amgx load np files y axs bcs nu vel pe c wc wi wd name rows kernel fsol f Dc KC reach
    solver_result probe_ops forces_result fuel d,
  proper lx -> documented rd lambdify amgx load np y axs bcs nu vel pe c wc wi wd -> lenZ axs = 2%Z ->
  describes_bodies lx files (lenZ axs) y [(name, rows)] -> describes_kernel y kernel -> In (kernel, reach) doc_kernels ->
  describes_forces_solver amgx load y fsol -> describes_kinematics rd y f Dc KC ->
  (forall X, In X rows -> kernel_fits axs bcs reach X) ->
  (forall X j, In X rows -> (1 <= j <= rc_nt c)%Z ->
     kernel_fits axs bcs reach [xc X 0 - Dc * KC / (2 * PI) * sin (2 * PI * f * (rc_t c + IZR j * rc_dt c)); xc X 1]) ->
  (np 0 * np 1 * np 2 <= lenZ rows)%Z ->
  rc_start c = 0%Z -> rc_nsave c <> 0%Z -> rc_nrestart c <> 0%Z -> (1 <= rc_bn c)%Z -> (rc_nt c <= Z.of_nat fuel)%Z ->
  exists s2 d2 ls, osc_program rd lx lambdify amgx load np files solver_result probe_ops forces_result fuel (Some y) d = Ok (Some (s2, d2, ls)) /\
     forces_lines (rc_nt c) (rc_t c) (rc_dt c) 1 2 ls.
Proof.
  intros rd lx lam amgx load np files y axs bcs nu vel pe c wc wi wd name rows kernel fsol f Dc KC reach sr po fr fuel d Hlx Hd H2 Hb Hk Hker Hfs Hki Hpts Hmov Hown H0 Hns Hnr Hbn Hf.
  destruct (ib_lemma rd lx lam amgx load np files y axs bcs nu vel pe c wc wi wd [(name, rows)] kernel Hlx Hd Hb Hk)
    as (m & D & types & values & U0 & p0 & probes & _ & (Hs & Hfit & Md & Hn & Ha & Ht & _) & Hbo & _ & _ & EO).
  assert (Hsz : nranks D = np_size np) by (unfold nranks, np_size; now rewrite !Hn).
  pose proof (doc_dim _ _ _ _ _ _ _ _ _ _ _ _ _ _ _ Hd) as Hdim. pose proof (doc_axes _ _ _ _ _ _ _ _ _ _ _ _ _ _ _ Hd) as Hax.
  destruct (kernel_read kernel reach Hker) as (K & HK). assert (H2' : m_dim m = 2%Z) by (rewrite Md; exact H2).
  destruct (oscillating_cylinder_motion m D f Dc KC (default_body (np_size np) (lenZ rows)) rows H2' Hbo) as (Pr & _). cbv zeta in Pr.
  assert (FX : forall X, kernel_fits axs bcs reach X -> inside_domain m X /\ in_reach m types reach X).
  { intros X HX. eapply fits; eauto; [apply (doc_bcs _ _ _ _ _ _ _ _ _ _ _ _ _ _ _ Hd)|]. intros g loc ty v Hin. apply (Ht _ _ _ _ Hin). }
  destruct (ib_simulations_complete m D (run_par c nu wc wi wd) types values kernel (dealt (np_size np) [(name, rows)]) (rc_t c) U0 p0 (sr (rc_velocity c)) (sr (rc_poisson c)) (sr (rc_poisson c))
    (osc_motion (nranks D) f (osc_Am Dc KC) (osc_Um f (osc_Am Dc KC)) (default_body (np_size np) (lenZ rows)) rows)
    (osc_pos f (osc_Am Dc KC) rows) (osc_velocity f (osc_Um f (osc_Am Dc KC))) (fr fsol) K reach (run_conf c) fuel d) as (_ & _ & C); auto.
  { intros b i X HX. apply dealt_located in HX. destruct HX as (x & Hx & Hi). destruct Hx as [<-|[]]. auto. }
  { intros b bc r Hbb Hr. rewrite Hsz in Hr. eapply (dealt_owned np [(name, rows)]); eauto. intros x [<-|[]]. exact Hown. }
  { cbn. lia. }
  destruct (C Pr) with (mon := fun s : rstate => po probes (x_ns (r_x s))) as (s2 & d2 & ls & E).
  { intros j b i X J1 J2 (bc & Hbb & Hi). apply nthZ_In in Hbb. cbn [dealt map bodies_at osc_pos combine fst snd] in Hbb. destruct Hbb as [<-|[]]. cbn [snd] in Hi. apply nthZ_In in Hi. 
    apply in_map_iff in Hi. destruct Hi as (row & <- & Hr). apply FX. apply (Hmov row j Hr). split; [exact J1|exact J2]. }
  exists s2, d2, ls. rewrite (EO fsol f Dc KC name rows Hfs Hki eq_refl). split; [exact E|].
  destruct (moving_forces_file _ _ _ _ _ _ _ _ _ _ _ _ _ _ _ _ _ _ _ _ _ _ _ _ Hs Hfit Hbo Pr E) as (O & s0 & s1 & w & E1 & E2 & L & Q). split; [exact L|].
  intros k l Hl. destruct (Q k l Hl) as (sk & _ & _ & Et & _ & Rp). apply reported_shape in Rp; [|lia]. destruct Rp as (vals & -> & Lv). exists vals. rewrite H2' in Lv. split; [|exact Lv].
  rewrite Et. f_equal. f_equal.
  unfold r_init in E1. apply bind_ok_inv in E1. destruct E1 as ([[O' X] x0] & E1 & E3). injection E3 as _ <-.
  apply (IbpmDec.d_init_inv m D _ _ _ Hs Hfit) in E1. destruct E1 as (B & _ & _ & _ & ->). unfold io_initial_with, r_ite, x_ite in E2. cbn [r_x x_ns s_ite run_conf c_nstart] in E2. rewrite H0 in E2.
  cbn [Z.eqb] in E2. injection E2 as <- _. reflexivity.
Qed.
Print Assumptions oscillating_program_completes.

(** C66. Resuming by editing the configuration, as C65: the bodies and the kernel
    are unchanged. *)
Theorem ibpm_program_restart : forall rd lx lambdify amgx load np files yA y1 y2 axs bcs nu vel pe cA c1 c2 wc wi wd bodies kernel solver_result probe_ops
    fuelA fuel1 fuel2 d sA dA lsA s1 d1 ls1 k j,
  proper lx ->
  documented rd lambdify amgx load np yA axs bcs nu vel pe cA wc wi wd ->
  documented rd lambdify amgx load np y1 axs bcs nu vel pe c1 wc wi wd ->
  documented rd lambdify amgx load np y2 axs bcs nu vel pe c2 wc wi wd ->
  (forall y, y = yA \/ y = y1 \/ y = y2 -> describes_bodies lx files (lenZ axs) y bodies /\ describes_kernel y kernel) ->
  same_simulation yA y1 cA c1 -> same_simulation y2 y1 c2 c1 ->
  (forall f loc v, ~ In (f, loc, CONVECTIVE, v) bcs) ->
  (forall m D, createMesh rd np (Some y1) = Ok (Some (m, D)) ->
     vsolve_respects (n_velocity m) (solver_result (rc_velocity c1)) /\
     psolve_respects (n_pressure m + n_forces m (dealt (nranks D) bodies)) (solver_result (rc_poisson c1))) ->
  (forall probes, describes_probes rd (lenZ axs) (rc_out c1) y1 probes -> writes_elsewhere (rc_out c1) (probe_ops probes)) ->
  rc_start cA = rc_start c1 -> (0 <= rc_start c1)%Z -> rc_nt c1 = Z.of_nat k -> (1 <= k)%nat -> rc_nt cA = Z.of_nat (k + j) ->
  rc_start c2 = (rc_start c1 + Z.of_nat k)%Z -> rc_nt c2 = Z.of_nat j ->
  ib_program rd lx lambdify amgx load np files solver_result probe_ops fuelA (Some yA) d = Ok (Some (sA, dA, lsA)) ->
  ib_program rd lx lambdify amgx load np files solver_result probe_ops fuel1 (Some y1) d = Ok (Some (s1, d1, ls1)) ->
  (rc_nrestart c1 | rc_start c2)%Z ->
  (rc_nsave c1 | rc_start c2)%Z \/ d (solution_path (rc_out c1) (rc_start c2)) = None ->
  rc_nsave c2 <> 0%Z -> rc_nrestart c2 <> 0%Z -> (j <= fuel2)%nat ->
  exists sB dB ls2, ib_program rd lx lambdify amgx load np files solver_result probe_ops fuel2 (Some y2) d1 = Ok (Some (sB, dB, ls2)) /\
    lsA = (ls1 ++ ls2)%list /\
    exists m D, createMesh rd np (Some y1) = Ok (Some (m, D)) /\ same_coupled m (n_forces m (dealt (nranks D) bodies)) sA sB.
Proof.
  intros rd lx lam amgx load np files yA y1 y2 axs bcs nu vel pe cA c1 c2 wc wi wd bodies kernel sr po fuelA fuel1 fuel2 d sA dA lsA s1 d1 ls1 k j Hlx DA D1 D2 Hbk SA S2 Hnc Hsol Hpr
    HsA H0 Hn1 Hk HnA Hs2 Hn2 RA R1 Hdiv Hnew Hns Hnr Hfu.
  destruct (Hbk yA ltac:(auto)) as [BbA KA]. destruct (Hbk y1 ltac:(auto)) as [Bb1 K1]. destruct (Hbk y2 ltac:(auto)) as [Bb2 K2].
  destruct (ib_lemma _ lx _ _ _ _ files _ _ _ _ _ _ _ _ _ _ bodies kernel Hlx D1 Bb1 K1) as (m & D & types & values & U0 & p0 & pr1 & (M1 & B1 & I1) & (Hs & Hb & Md & Hn & _ & Ht & _ & _ & Hp1) & Hbo & E1 & _).
  destruct (ib_lemma _ lx _ _ _ _ files _ _ _ _ _ _ _ _ _ _ bodies kernel Hlx DA BbA KA) as (mA & DA' & tyA & vaA & UA & pA & prA & (MA & BA & IA) & _ & _ & EA & _).
  destruct (ib_lemma _ lx _ _ _ _ files _ _ _ _ _ _ _ _ _ _ bodies kernel Hlx D2 Bb2 K2) as (m2 & D2' & ty2 & va2 & U2 & p2 & pr2 & (M2 & B2 & I2) & _ & _ & E2 & _).
  assert (Hsz : nranks D = np_size np) by (unfold nranks, np_size; now rewrite !Hn).
  destruct SA as ((stA & st1 & -> & -> & Q1 & Q2) & A1 & A2 & A3 & A4 & A5 & A6).
  destruct S2 as ((st2 & st1' & -> & E0 & Q3 & Q4) & C1 & C2 & C3 & C4 & C5 & C6). injection E0 as <-.
  rewrite (createMesh_sections rd np stA st1 Q1 Q2), M1 in MA. injection MA as <- <-. rewrite (parseBCs_flow rd stA st1 Q2), B1 in BA. injection BA as <- <-.
  rewrite (ics_flow rd lam stA st1 m D Q2), I1 in IA. injection IA as <- <-.
  rewrite (createMesh_sections rd np st2 st1 Q3 Q4), M1 in M2. injection M2 as <- <-. rewrite (parseBCs_flow rd st2 st1 Q4), B1 in B2. injection B2 as <- <-.
  rewrite (ics_flow rd lam st2 st1 m D Q4), I1 in I2. injection I2 as <- <-.
  rewrite EA in RA. rewrite E1 in R1. unfold run_par, run_conf in *. rewrite A1, A2, A3, A4, A5, A6 in RA.
  specialize (E2 sr po fuel2 d1). rewrite C1, C2, C3, C4, C5, C6 in E2. rewrite E2.
  destruct (Hsol m D M1) as [Hv Hq]. rewrite Hsz in Hq.
  assert (Nc : no_convective m types).
  { eapply no_convective_read; [exact Md|apply (doc_bcs _ _ _ _ _ _ _ _ _ _ _ _ _ _ _ D1)|intros f loc ty v Hi; apply (Ht f loc ty v Hi)|exact Hnc]. }
  edestruct (coupled_simulation_restart m D (mkPar (rc_dt c1) nu (rc_bn c1) wc wi wd (match rc_poisson c1 with AmgX _ _ => true | KSP _ _ => false end))
    types values kernel (dealt (np_size np) bodies) (rc_t c1) U0 p0 (sr (rc_velocity c1)) (sr (rc_poisson c1)) (po prA) (po pr1) (po pr2)
    (mkConf (rc_out c1) (rc_logs cA) (rc_start cA) (rc_nt cA) (rc_nsave cA) (rc_nrestart cA))
    (mkConf (rc_out c1) (rc_logs c1) (rc_start c1) (rc_nt c1) (rc_nsave c1) (rc_nrestart c1))
    (mkConf (rc_out c1) (rc_logs c2) (rc_start c2) (rc_nt c2) (rc_nsave c2) (rc_nrestart c2))) with (k := k) (j := j) (fuel2 := fuel2)
    as (sB & dB & ls2 & EB & HB & HL); try exact RA; try exact R1; try assumption; try reflexivity.
  - exact (Hpr pr1 Hp1).
  - exists sB, dB, ls2. split; [exact EB|]. split; [exact HL|]. exists m, D. rewrite Hsz. split; [exact M1|exact HB].
Qed.
Print Assumptions ibpm_program_restart.

(** C66. The same for the decoupled program. *)
Theorem decoupled_program_restart : forall rd lx lambdify amgx load np files yA y1 y2 axs bcs nu vel pe cA c1 c2 wc wi wd bodies kernel fsol solver_result probe_ops
    fuelA fuel1 fuel2 d sA dA lsA s1 d1 ls1 k j,
  proper lx ->
  documented rd lambdify amgx load np yA axs bcs nu vel pe cA wc wi wd ->
  documented rd lambdify amgx load np y1 axs bcs nu vel pe c1 wc wi wd ->
  documented rd lambdify amgx load np y2 axs bcs nu vel pe c2 wc wi wd ->
  (forall y, y = yA \/ y = y1 \/ y = y2 -> describes_bodies lx files (lenZ axs) y bodies /\ describes_kernel y kernel /\ describes_forces_solver amgx load y fsol) ->
  same_simulation yA y1 cA c1 -> same_simulation y2 y1 c2 c1 ->
  (forall f loc v, ~ In (f, loc, CONVECTIVE, v) bcs) ->
  (forall m D, createMesh rd np (Some y1) = Ok (Some (m, D)) ->
     vsolve_respects (n_velocity m) (solver_result (rc_velocity c1)) /\
     psolve_respects (n_pressure m) (solver_result (rc_poisson c1)) /\ psolve_respects (n_forces m (dealt (nranks D) bodies)) (solver_result fsol)) ->
  (forall probes, describes_probes rd (lenZ axs) (rc_out c1) y1 probes -> writes_elsewhere (rc_out c1) (probe_ops probes)) ->
  rc_start cA = rc_start c1 -> (0 <= rc_start c1)%Z -> rc_nt c1 = Z.of_nat k -> (1 <= k)%nat -> rc_nt cA = Z.of_nat (k + j) ->
  rc_start c2 = (rc_start c1 + Z.of_nat k)%Z -> rc_nt c2 = Z.of_nat j ->
  d_program rd lx lambdify amgx load np files solver_result probe_ops fuelA (Some yA) d = Ok (Some (sA, dA, lsA)) ->
  d_program rd lx lambdify amgx load np files solver_result probe_ops fuel1 (Some y1) d = Ok (Some (s1, d1, ls1)) ->
  (rc_nrestart c1 | rc_start c2)%Z ->
  (rc_nsave c1 | rc_start c2)%Z \/ d (solution_path (rc_out c1) (rc_start c2)) = None ->
  rc_nsave c2 <> 0%Z -> rc_nrestart c2 <> 0%Z -> (j <= fuel2)%nat ->
  exists sB dB ls2, d_program rd lx lambdify amgx load np files solver_result probe_ops fuel2 (Some y2) d1 = Ok (Some (sB, dB, ls2)) /\
    lsA = (ls1 ++ ls2)%list /\
    exists m D, createMesh rd np (Some y1) = Ok (Some (m, D)) /\ same_decoupled m (n_forces m (dealt (nranks D) bodies)) sA sB.
Proof.
  intros rd lx lam amgx load np files yA y1 y2 axs bcs nu vel pe cA c1 c2 wc wi wd bodies kernel fsol sr po fuelA fuel1 fuel2 d sA dA lsA s1 d1 ls1 k j Hlx DA D1 D2 Hbk SA S2 Hnc Hsol Hpr
    HsA H0 Hn1 Hk HnA Hs2 Hn2 RA R1 Hdiv Hnew Hns Hnr Hfu.
  destruct (Hbk yA ltac:(auto)) as (BbA & KA & FA). destruct (Hbk y1 ltac:(auto)) as (Bb1 & K1 & F1). destruct (Hbk y2 ltac:(auto)) as (Bb2 & K2 & F2).
  destruct (ib_lemma _ lx _ _ _ _ files _ _ _ _ _ _ _ _ _ _ bodies kernel Hlx D1 Bb1 K1) as (m & D & types & values & U0 & p0 & pr1 & (M1 & B1 & I1) & (Hs & Hb & Md & Hn & _ & Ht & _ & _ & Hp1) & Hbo & _ & E1 & _).
  destruct (ib_lemma _ lx _ _ _ _ files _ _ _ _ _ _ _ _ _ _ bodies kernel Hlx DA BbA KA) as (mA & DA' & tyA & vaA & UA & pA & prA & (MA & BA & IA) & _ & _ & _ & EA & _).
  destruct (ib_lemma _ lx _ _ _ _ files _ _ _ _ _ _ _ _ _ _ bodies kernel Hlx D2 Bb2 K2) as (m2 & D2' & ty2 & va2 & U2 & p2 & pr2 & (M2 & B2 & I2) & _ & _ & _ & E2 & _).
  assert (Hsz : nranks D = np_size np) by (unfold nranks, np_size; now rewrite !Hn).
  destruct SA as ((stA & st1 & -> & -> & Q1 & Q2) & A1 & A2 & A3 & A4 & A5 & A6).
  destruct S2 as ((st2 & st1' & -> & E0 & Q3 & Q4) & C1 & C2 & C3 & C4 & C5 & C6). injection E0 as <-.
  rewrite (createMesh_sections rd np stA st1 Q1 Q2), M1 in MA. injection MA as <- <-. rewrite (parseBCs_flow rd stA st1 Q2), B1 in BA. injection BA as <- <-.
  rewrite (ics_flow rd lam stA st1 m D Q2), I1 in IA. injection IA as <- <-.
  rewrite (createMesh_sections rd np st2 st1 Q3 Q4), M1 in M2. injection M2 as <- <-. rewrite (parseBCs_flow rd st2 st1 Q4), B1 in B2. injection B2 as <- <-.
  rewrite (ics_flow rd lam st2 st1 m D Q4), I1 in I2. injection I2 as <- <-.
  rewrite (EA fsol FA) in RA. rewrite (E1 fsol F1) in R1. unfold run_par, run_conf in *. rewrite A1, A2, A3, A4, A5, A6 in RA.
  specialize (E2 fsol F2 sr po fuel2 d1). rewrite C1, C2, C3, C4, C5, C6 in E2. rewrite E2.
  destruct (Hsol m D M1) as (Hv & Hq & Hq'). rewrite Hsz in Hq'.
  assert (Nc : no_convective m types).
  { eapply no_convective_read; [exact Md|apply (doc_bcs _ _ _ _ _ _ _ _ _ _ _ _ _ _ _ D1)|intros f loc ty v Hi; apply (Ht f loc ty v Hi)|exact Hnc]. }
  edestruct (decoupled_simulation_restart m D (mkPar (rc_dt c1) nu (rc_bn c1) wc wi wd (match rc_poisson c1 with AmgX _ _ => true | KSP _ _ => false end))
    types values kernel (dealt (np_size np) bodies) (rc_t c1) U0 p0 (sr (rc_velocity c1)) (sr (rc_poisson c1)) (sr fsol) (fun x => po prA (x_ns x)) (fun x => po pr1 (x_ns x)) (fun x => po pr2 (x_ns x))
    (mkConf (rc_out c1) (rc_logs cA) (rc_start cA) (rc_nt cA) (rc_nsave cA) (rc_nrestart cA))
    (mkConf (rc_out c1) (rc_logs c1) (rc_start c1) (rc_nt c1) (rc_nsave c1) (rc_nrestart c1))
    (mkConf (rc_out c1) (rc_logs c2) (rc_start c2) (rc_nt c2) (rc_nsave c2) (rc_nrestart c2))) with (k := k) (j := j) (fuel2 := fuel2)
    as (sB & dB & ls2 & EB & HB & HL); try exact RA; try exact R1; try assumption; try reflexivity.
  - intros s o n Ho. exact (Hpr pr1 Hp1 (x_ns s) o n Ho).
  - exists sB, dB, ls2. split; [exact EB|]. split; [exact HL|]. exists m, D. rewrite Hsz. split; [exact M1|exact HB].
Qed.
Print Assumptions decoupled_program_restart.

(** C66. The same for the oscillating cylinder; the second run makes at least one
    step. *)
Theorem oscillating_program_restart : forall rd lx lambdify amgx load np files yA y1 y2 axs bcs nu vel pe cA c1 c2 wc wi wd name rows kernel fsol f Dc KC solver_result probe_ops forces_result
    fuelA fuel1 fuel2 d sA dA lsA s1 d1 ls1 k j,
  proper lx -> lenZ axs = 2%Z ->
  documented rd lambdify amgx load np yA axs bcs nu vel pe cA wc wi wd ->
  documented rd lambdify amgx load np y1 axs bcs nu vel pe c1 wc wi wd ->
  documented rd lambdify amgx load np y2 axs bcs nu vel pe c2 wc wi wd ->
  (forall y, y = yA \/ y = y1 \/ y = y2 -> describes_bodies lx files (lenZ axs) y [(name, rows)] /\ describes_kernel y kernel /\ describes_forces_solver amgx load y fsol /\ describes_kinematics rd y f Dc KC) ->
  same_simulation yA y1 cA c1 -> same_simulation y2 y1 c2 c1 ->
  (forall f loc v, ~ In (f, loc, CONVECTIVE, v) bcs) ->
  (forall m D, createMesh rd np (Some y1) = Ok (Some (m, D)) ->
     vsolve_respects (n_velocity m) (solver_result (rc_velocity c1)) /\
     psolve_respects (n_pressure m) (solver_result (rc_poisson c1)) /\ forall A, psolve_respects (n_forces m (dealt (nranks D) [(name, rows)])) (forces_result fsol A)) ->
  (forall probes, describes_probes rd (lenZ axs) (rc_out c1) y1 probes -> writes_elsewhere (rc_out c1) (probe_ops probes)) ->
  rc_start cA = rc_start c1 -> (0 <= rc_start c1)%Z -> rc_nt c1 = Z.of_nat k -> (1 <= k)%nat -> rc_nt cA = Z.of_nat (k + j) ->
  rc_start c2 = (rc_start c1 + Z.of_nat k)%Z -> rc_nt c2 = Z.of_nat j -> (1 <= j)%nat ->
  osc_program rd lx lambdify amgx load np files solver_result probe_ops forces_result fuelA (Some yA) d = Ok (Some (sA, dA, lsA)) ->
  osc_program rd lx lambdify amgx load np files solver_result probe_ops forces_result fuel1 (Some y1) d = Ok (Some (s1, d1, ls1)) ->
  (rc_nrestart c1 | rc_start c2)%Z ->
  (rc_nsave c1 | rc_start c2)%Z \/ d (solution_path (rc_out c1) (rc_start c2)) = None ->
  rc_nsave c2 <> 0%Z -> rc_nrestart c2 <> 0%Z -> (j <= fuel2)%nat ->
  exists sB dB ls2, osc_program rd lx lambdify amgx load np files solver_result probe_ops forces_result fuel2 (Some y2) d1 = Ok (Some (sB, dB, ls2)) /\
    lsA = (ls1 ++ ls2)%list /\
    exists m D, createMesh rd np (Some y1) = Ok (Some (m, D)) /\ same_decoupled m (n_forces m (dealt (nranks D) [(name, rows)])) (r_x sA) (r_x sB) /\ r_bodies sA = r_bodies sB.
Proof.
  intros rd lx lam amgx load np files yA y1 y2 axs bcs nu vel pe cA c1 c2 wc wi wd name rows kernel fsol f Dc KC sr po fr fuelA fuel1 fuel2 d sA dA lsA s1 d1 ls1 k j Hlx Hd2 DA D1 D2 Hbk SA S2 Hnc Hsol Hpr
    HsA H0 Hn1 Hk HnA Hs2 Hn2 Hj RA R1 Hdiv Hnew Hns Hnr Hfu.
  destruct (Hbk yA ltac:(auto)) as (BbA & KA & FA & GA). destruct (Hbk y1 ltac:(auto)) as (Bb1 & K1 & F1 & G1). destruct (Hbk y2 ltac:(auto)) as (Bb2 & K2 & F2 & G2).
  destruct (ib_lemma _ lx _ _ _ _ files _ _ _ _ _ _ _ _ _ _ [(name, rows)] kernel Hlx D1 Bb1 K1) as (m & D & types & values & U0 & p0 & pr1 & (M1 & B1 & I1) & (Hs & Hb & Md & Hn & _ & Ht & _ & _ & Hp1) & Hbo & _ & _ & E1).
  destruct (ib_lemma _ lx _ _ _ _ files _ _ _ _ _ _ _ _ _ _ [(name, rows)] kernel Hlx DA BbA KA) as (mA & DA' & tyA & vaA & UA & pA & prA & (MA & BA & IA) & _ & _ & _ & _ & EA).
  destruct (ib_lemma _ lx _ _ _ _ files _ _ _ _ _ _ _ _ _ _ [(name, rows)] kernel Hlx D2 Bb2 K2) as (m2 & D2' & ty2 & va2 & U2 & p2 & pr2 & (M2 & B2 & I2) & _ & _ & _ & _ & E2).
  assert (Hsz : nranks D = np_size np) by (unfold nranks, np_size; now rewrite !Hn).
  destruct SA as ((stA & st1 & -> & -> & Q1 & Q2) & A1 & A2 & A3 & A4 & A5 & A6).
  destruct S2 as ((st2 & st1' & -> & E0 & Q3 & Q4) & C1 & C2 & C3 & C4 & C5 & C6). injection E0 as <-.
  rewrite (createMesh_sections rd np stA st1 Q1 Q2), M1 in MA. injection MA as <- <-. rewrite (parseBCs_flow rd stA st1 Q2), B1 in BA. injection BA as <- <-.
  rewrite (ics_flow rd lam stA st1 m D Q2), I1 in IA. injection IA as <- <-.
  rewrite (createMesh_sections rd np st2 st1 Q3 Q4), M1 in M2. injection M2 as <- <-. rewrite (parseBCs_flow rd st2 st1 Q4), B1 in B2. injection B2 as <- <-.
  rewrite (ics_flow rd lam st2 st1 m D Q4), I1 in I2. injection I2 as <- <-.
  rewrite (EA fsol f Dc KC name rows FA GA eq_refl) in RA. rewrite (E1 fsol f Dc KC name rows F1 G1 eq_refl) in R1. unfold run_par, run_conf in *. rewrite A1, A2, A3, A4, A5, A6 in RA.
  specialize (E2 fsol f Dc KC name rows F2 G2 eq_refl sr po fr fuel2 d1). rewrite C1, C2, C3, C4, C5, C6 in E2. rewrite E2.
  destruct (Hsol m D M1) as (Hv & Hq & Hq'). rewrite Hsz in Hq'.
  assert (H2' : m_dim m = 2%Z) by (rewrite Md; exact Hd2).
  destruct (oscillating_cylinder_motion m D f Dc KC (default_body (np_size np) (lenZ rows)) rows H2' Hbo) as (Pr & _). cbv zeta in Pr.
  assert (Nc : no_convective m types).
  { eapply no_convective_read; [exact Md|apply (doc_bcs _ _ _ _ _ _ _ _ _ _ _ _ _ _ _ D1)|intros g loc ty v Hi; apply (Ht g loc ty v Hi)|exact Hnc]. }
  edestruct (moving_simulation_restart m D (mkPar (rc_dt c1) nu (rc_bn c1) wc wi wd (match rc_poisson c1 with AmgX _ _ => true | KSP _ _ => false end))
    types values kernel (dealt (np_size np) [(name, rows)]) (osc_motion (nranks D) f (osc_Am Dc KC) (osc_Um f (osc_Am Dc KC)) (default_body (np_size np) (lenZ rows)) rows)
    (osc_pos f (osc_Am Dc KC) rows) (osc_velocity f (osc_Um f (osc_Am Dc KC))) (rc_t c1) U0 p0 (sr (rc_velocity c1)) (sr (rc_poisson c1)) (fr fsol) (fun x => po prA (x_ns (r_x x))) (fun x => po pr1 (x_ns (r_x x))) (fun x => po pr2 (x_ns (r_x x)))
    (mkConf (rc_out c1) (rc_logs cA) (rc_start cA) (rc_nt cA) (rc_nsave cA) (rc_nrestart cA))
    (mkConf (rc_out c1) (rc_logs c1) (rc_start c1) (rc_nt c1) (rc_nsave c1) (rc_nrestart c1))
    (mkConf (rc_out c1) (rc_logs c2) (rc_start c2) (rc_nt c2) (rc_nsave c2) (rc_nrestart c2))) with (k := k) (j := j) (fuel2 := fuel2)
    as (sB & dB & ls2 & EB & HB & HB2 & HL); try exact RA; try exact R1; try assumption; try reflexivity.
  - intros s o n Ho. exact (Hpr pr1 Hp1 (x_ns (r_x s)) o n Ho).
  - exists sB, dB, ls2. split; [exact EB|]. split; [exact HL|]. exists m, D. rewrite Hsz. split; [exact M1|]. split; [exact HB|exact HB2].
Qed.
Print Assumptions oscillating_program_restart.

(** * What the programs do with other configurations *)

(** A body whose file cannot be read, whose type is not "points" or that names no
    file: no error is reported; a half-built object is used. (The body is the
    first one that is not as the manual says.) *)
Theorem bad_body_refuted : forall rd lx lambdify amgx load np files st dir l i lb dim,
  proper lx -> (1 <= dim)%Z -> word_entry (YMap st) "directory" dir -> assoc st "bodies" = Some (YSeq l) -> nthZ l i = Some (YMap lb) ->
  (forall j yb, (0 <= j < i)%Z -> nthZ l j = Some yb -> exists b, describes_body lx files dim dir j yb b) ->
  assoc lb "file" = None \/ (exists w, word_entry (YMap lb) "file" w /\ (exists ty, word_entry (YMap lb) "type" ty /\ ty <> "points")) \/
  (exists w, word_entry (YMap lb) "file" w /\ files w = None /\ files (dir ++ "/" ++ w) = None) ->
  the_bodies lx np files dim (Some (YMap st)) = UB /\
  forall solver_result probe_ops fuel d, mesh_size (Some (YMap st)) = Ok dim ->
    ib_program rd lx lambdify amgx load np files solver_result probe_ops fuel (Some (YMap st)) d = UB.
Proof.
  intros rd lx lam amgx load np files st dir l i lb dim Hlx Hd Hdir Eb Ei Hpre Hbad.
  assert (E : the_bodies lx np files dim (Some (YMap st)) = UB).
  { apply the_bodies_bad with (dir := dir) (l := l) (i := i) (lb := lb); assumption. }
  split; [exact E|]. intros sr po fuel d Em. unfold ib_program. rewrite Em. cbn [bind]. rewrite E. reflexivity.
Qed.
Print Assumptions bad_body_refuted.

(** The centre of the cylinder is not used but must be given: without it an
    exception leaves the program. *)
Theorem center_required_refuted : forall rd st l kin, assoc st "bodies" = Some (YSeq [YMap l]) -> assoc l "kinematics" = Some (YMap kin) -> assoc kin "center" = None ->
  read_kinematics rd (Some (YMap st)) = Err EXC.
Proof.
  intros * E1 E2 E3. unfold read_kinematics. cbn [yget bind]. rewrite E1. cbn [yidx]. rewrite nthZ_cons_0. cbn [yget bind]. rewrite E2. cbn [yget bind]. rewrite E3. reflexivity.
Qed.
Print Assumptions center_required_refuted.

(** An unknown kernel is reported as an error by the coupled and the decoupled
    program, before any step. *)
Theorem unknown_kernel_reported : forall rd lx lambdify amgx load np files y axs bcs nu vel pe c wc wi wd bodies kernel fsol solver_result probe_ops fuel d,
  proper lx -> documented rd lambdify amgx load np y axs bcs nu vel pe c wc wi wd ->
  describes_bodies lx files (lenZ axs) y bodies -> describes_kernel y kernel -> describes_forces_solver amgx load y fsol ->
  (1 <= rc_bn c)%Z -> (forall reach, ~ In (kernel, reach) doc_kernels) ->
  ib_program rd lx lambdify amgx load np files solver_result probe_ops fuel (Some y) d = Err PETSC_ERR_ARG_UNKNOWN_TYPE /\
  d_program rd lx lambdify amgx load np files solver_result probe_ops fuel (Some y) d = Err PETSC_ERR_ARG_UNKNOWN_TYPE.
Proof.
  intros * Hlx Hd Hb Hk Hfs Hbn Hu. destruct (ib_lemma rd lx lambdify amgx load np files y axs bcs nu vel pe c wc wi wd bodies kernel Hlx Hd Hb Hk)
    as (m & D & types & values & U0 & p0 & probes & _ & (Hs & Hfit & _) & _ & EI & ED & _).
  rewrite EI, (ED fsol Hfs). unfold ib_main, d_main. rewrite ib_init_unknown, d_init_unknown by auto. split; reflexivity.
Qed.
Print Assumptions unknown_kernel_reported.

(** * A concrete configuration *)

(** The configuration of C65 with a body of three points on three processes. *)
Definition px_files (p : string) : option text :=
  if String.eqb p "/run/cylinder.body" then Some (mkText ["3"; "2 0.5"; "2.5 0.25"; "2.25 0.5"] true) else None.
Definition px_rows : list (list R) := [nums [(2, 0%nat); (5, 1%nat)]; nums [(25, 1%nat); (25, 2%nat)]; nums [(225, 2%nat); (5, 1%nat)]]%Z.

Lemma px_x row : In row px_rows -> (2 <= xc row 0 <= 5 / 2 /\ 1 / 4 <= xc row 1 <= 1 / 2).
Proof.
  assert (Hxc : forall a b, xc [a; b] 0 = a /\ xc [a; b] 1 = b) by (intros; split; reflexivity).
  intros [<-|[<-|[<-|[]]]]; unfold nums; cbn [map fst snd]; rewrite !(proj1 (Hxc _ _)), !(proj2 (Hxc _ _)); cbn [pow]; lra.
Qed.
Lemma px_fits reach X : 0 < xc X 0 < 4 -> 0 < xc X 1 < 1 -> kernel_fits ex_axs (ex_bcs_of NEUMANN) reach X.
Proof.
  intros Hx Hy ax d Hi Hd. destruct Hi as [<-|[<-|[]]]; cbn [ax_dir ax_start ax_subs] in *; cbn in Hd;
    repeat (destruct Hd as [Hd|Hd]; [first [discriminate|injection Hd as <-]|]); try destruct Hd.
  - split; [cbn; lra|]. intros v k pieces Hb _. exfalso. cbn in Hb. repeat (destruct Hb as [Hb|Hb]; [discriminate|]). destruct Hb.
  - split; [cbn; lra|]. intros v k pieces Hb _. exfalso. cbn in Hb. repeat (destruct Hb as [Hb|Hb]; [discriminate|]). destruct Hb.
Qed.

Example ib_program_case : forall ss ns s n, to_int ex_reader ss = Some s -> to_int ex_reader ns = Some n ->
  let y := px_yaml "NEUMANN" ss ns in
  documented ex_reader ex_lambda false (fun _ => true) ex_np y ex_axs (ex_bcs_of NEUMANN) (1 / 100)
    [(fun x y _ _ _ => x * y); (fun _ _ _ _ nu => nu)] (fun _ _ _ _ _ => 0) (px_conf s n) [3/2; -(1/2)] (1/2) [1/2] /\
  describes_bodies cxx px_files 2 y [("body0", px_rows)] /\ describes_kernel y "ROMA_ET_AL_1999" /\
  describes_forces_solver false (fun _ => true) y (KSP "forces" "/run/forces.info") /\ describes_kinematics ex_reader y 1 1 1 /\
  (forall X t, In X px_rows -> kernel_fits ex_axs (ex_bcs_of NEUMANN) 2 X /\
     kernel_fits ex_axs (ex_bcs_of NEUMANN) 2 [xc X 0 - 1 * 1 / (2 * PI) * sin (2 * PI * 1 * t); xc X 1]) /\
  (ex_np 0 * ex_np 1 * ex_np 2 <= lenZ px_rows)%Z.
Proof.
  intros ss ns s n Hs Hn y. split; [apply program_case; auto; [cbn; tauto|discriminate]|]. split.
  { do 3 eexists. split; [reflexivity|]. split; [eexists; split; reflexivity|]. split; [reflexivity|]. split; [reflexivity|].
    intros i yb b Hi Hb. assert (i = 0)%Z as -> by (apply nthZ_Some_range in Hi; cbn in Hi; lia). injection Hi as <-. injection Hb as <-.
    do 4 eexists. split; [reflexivity|]. split; [left; split; reflexivity|]. split; [left; split; reflexivity|]. split; [eexists; split; reflexivity|].
    split; [right; split; reflexivity|]. split; [reflexivity|]. split; [cbn; lia|].
    eexists _, _. split; [reflexivity|]. split; [reflexivity|]. split; [reflexivity|]. split.
    - repeat constructor; unfold exact_line; (econstructor; [reflexivity|]; econstructor; [reflexivity|constructor]).
    - repeat constructor. }
  split. { do 2 eexists. split; [reflexivity|]. split; [reflexivity|]. left. split; reflexivity. }
  split. { do 3 eexists. split; [reflexivity|]. split; [reflexivity|]. split; [eexists; split; reflexivity|]. do 2 eexists. split; [reflexivity|].
    split; [right; eexists; split; reflexivity|]. exists "/run/forces.info". split.
    - right. right. exists "forces.info". split; [eexists; split; reflexivity|]. split; [discriminate|]. split; reflexivity.
    - left. split; [reflexivity|]. split; [reflexivity|]. right. reflexivity. }
  split. { do 4 eexists. split; [reflexivity|]. split; [reflexivity|]. split; [reflexivity|].
    split; [right; do 2 eexists; split; [reflexivity|]; split; reflexivity|]. split; [right; do 2 eexists; split; [reflexivity|]; split; reflexivity|].
    split; [right; do 2 eexists; split; [reflexivity|]; split; reflexivity|]. split; [instantiate (1 := ["1.0"; "0.0"]); reflexivity|reflexivity]. }
  split; [|vm_compute; discriminate].
  intros X t HX. destruct (px_x X HX) as [Hx Hy]. split; [apply px_fits; lra|].
  assert (Hxc : forall a b, xc [a; b] 0 = a /\ xc [a; b] 1 = b) by (intros; split; reflexivity).
  apply px_fits; [rewrite (proj1 (Hxc _ _))|rewrite (proj2 (Hxc _ _))]; [|lra].
  assert (0 < 1 * 1 / (2 * PI) < 1).
  { pose proof PI_RGT_0. pose proof PI2_3_2. split; [apply Rdiv_lt_0_compat; lra|]. apply (Rmult_lt_reg_r (2 * PI)); [lra|]. field_simplify; lra. }
  pose proof (SIN_bound (2 * PI * 1 * t)). set (A := 1 * 1 / (2 * PI)) in *. set (sn := sin _) in *.
  assert (-1 < A * sn < 1) by (split; nra). lra.
Qed.

(** These runs: 6 steps, and 3 + 3 steps, of the three programs. *)
Example ib_program_runs : 
  let sr := fun (_ : linsolver) (_ b : vec) => b in let po := fun (_ : list pdesc) (_ : nsstate) => @nil fsop in
  let run := fun y d => ib_program ex_reader cxx ex_lambda false (fun _ => true) ex_np px_files sr po 6 (Some y) d in
  let rund := fun y d => d_program ex_reader cxx ex_lambda false (fun _ => true) ex_np px_files sr po 6 (Some y) d in
  let runo := fun y d => osc_program ex_reader cxx ex_lambda false (fun _ => true) ex_np px_files sr po (fun _ _ _ b => b) 6 (Some y) d in
  let y6 := px_yaml "NEUMANN" "0" "6" in let y3 := px_yaml "NEUMANN" "0" "3" in let y33 := px_yaml "NEUMANN" "3" "3" in
  (exists sA dA lsA s1 d1 ls1 sB dB ls2, run y6 (fun _ => None) = Ok (Some (sA, dA, lsA)) /\ run y3 (fun _ => None) = Ok (Some (s1, d1, ls1)) /\
     run y33 d1 = Ok (Some (sB, dB, ls2)) /\ lenZ lsA = 6%Z /\ lsA = (ls1 ++ ls2)%list) /\
  (exists sA dA lsA s1 d1 ls1 sB dB ls2, rund y6 (fun _ => None) = Ok (Some (sA, dA, lsA)) /\ rund y3 (fun _ => None) = Ok (Some (s1, d1, ls1)) /\
     rund y33 d1 = Ok (Some (sB, dB, ls2)) /\ lenZ lsA = 6%Z /\ lsA = (ls1 ++ ls2)%list) /\
  (exists sA dA lsA s1 d1 ls1 sB dB ls2, runo y6 (fun _ => None) = Ok (Some (sA, dA, lsA)) /\ runo y3 (fun _ => None) = Ok (Some (s1, d1, ls1)) /\
     runo y33 d1 = Ok (Some (sB, dB, ls2)) /\ lenZ lsA = 6%Z /\ lsA = (ls1 ++ ls2)%list).
Proof.
  intros sr po run rund runo y6 y3 y33.
  destruct (ib_program_case "0" "6" 0 6 eq_refl eq_refl) as (DA & BA & KA & FA & GA & Fx & Np).
  destruct (ib_program_case "0" "3" 0 3 eq_refl eq_refl) as (D1 & B1 & K1 & F1 & G1 & _).
  destruct (ib_program_case "3" "3" 3 3 eq_refl eq_refl) as (D2 & B2 & K2 & F2 & G2 & _).
  assert (Sm : forall a b c e i j, same_simulation (px_yaml "NEUMANN" a b) (px_yaml "NEUMANN" c e) (px_conf i j) (px_conf 0 3)).
  { intros. split; [do 2 eexists; repeat (split; [reflexivity|]); reflexivity|]. repeat split. }
  assert (Nc : forall f loc v, ~ In (f, loc, CONVECTIVE, v) (ex_bcs_of NEUMANN)).
  { intros f loc v Hi. unfold ex_bcs_of in Hi. cbn [In] in Hi. repeat (destruct Hi as [Hi|Hi]; [discriminate|]). destruct Hi. }
  assert (Vr : forall n, vsolve_respects n (sr (KSP "" ""))) by (intros n g g' b b' _ H; exact H).
  assert (Pr : forall n, psolve_respects n (sr (KSP "" ""))) by (intros n g g' b b' H; exact H).
  assert (Px : forall b X, In b [("body0", px_rows)] -> In X (snd b) -> kernel_fits ex_axs (ex_bcs_of NEUMANN) 2 X) by (intros b X [<-|[]] HX; apply (Fx X 0 HX)).
  assert (Pn : forall b : string * list (list R), In b [("body0", px_rows)] -> (ex_np 0 * ex_np 1 * ex_np 2 <= lenZ (snd b))%Z) by (intros b [<-|[]]; exact Np).
  assert (Rk : In ("ROMA_ET_AL_1999", 2%Z) doc_kernels) by (left; reflexivity).
  set (d0 := fun _ : string => @None file).
  destruct (ib_programs_complete _ cxx _ _ _ _ px_files _ _ _ _ _ _ _ _ _ _ _ _ _ sr po 6 d0 cxx_syntax_proper DA BA KA Rk Px Pn eq_refl ltac:(discriminate) ltac:(discriminate) ltac:(cbn; lia) ltac:(cbn; lia))
    as ((sA & dA & lsA & EA & LA & _) & QA). destruct (QA _ FA) as (xA & eA & lxA & XA & MA & _).
  destruct (ib_programs_complete _ cxx _ _ _ _ px_files _ _ _ _ _ _ _ _ _ _ _ _ _ sr po 6 d0 cxx_syntax_proper D1 B1 K1 Rk Px Pn eq_refl ltac:(discriminate) ltac:(discriminate) ltac:(cbn; lia) ltac:(cbn; lia))
    as ((s1 & d1 & ls1 & E1 & L1 & _) & Q1). destruct (Q1 _ F1) as (x1 & e1 & lx1 & X1 & M1 & _).
  destruct (oscillating_program_completes _ cxx _ _ _ _ px_files _ _ _ _ _ _ _ _ _ _ _ _ _ _ _ _ _ _ sr po (fun _ _ _ b => b) 6 d0 cxx_syntax_proper DA eq_refl BA KA Rk FA GA
    (fun X HX => proj1 (Fx X 0 HX)) (fun X j HX _ => proj2 (Fx X _ HX)) Np eq_refl ltac:(discriminate) ltac:(discriminate) ltac:(cbn; lia) ltac:(cbn; lia)) as (rA & hA & lrA & RA & NA & _).
  destruct (oscillating_program_completes _ cxx _ _ _ _ px_files _ _ _ _ _ _ _ _ _ _ _ _ _ _ _ _ _ _ sr po (fun _ _ _ b => b) 6 d0 cxx_syntax_proper D1 eq_refl B1 K1 Rk F1 G1
    (fun X HX => proj1 (Fx X 0 HX)) (fun X j HX _ => proj2 (Fx X _ HX)) Np eq_refl ltac:(discriminate) ltac:(discriminate) ltac:(cbn; lia) ltac:(cbn; lia)) as (r1 & h1 & lr1 & R1 & N1 & _).
  split; [|split].
  - destruct (ibpm_program_restart ex_reader cxx ex_lambda false (fun _ => true) ex_np px_files y6 y3 y33 ex_axs (ex_bcs_of NEUMANN) (1 / 100)
      [(fun x y _ _ _ => x * y); (fun _ _ _ _ nu => nu)] (fun _ _ _ _ _ => 0) (px_conf 0 6) (px_conf 0 3) (px_conf 3 3) [3/2; -(1/2)] (1/2) [1/2] [("body0", px_rows)] "ROMA_ET_AL_1999" sr po 6 6 6 d0 sA dA lsA s1 d1 ls1 3 3)
      as (sB & dB & ls2 & EB & HL & _); try assumption; try reflexivity; try apply Sm; try (cbn; lia); try (left; exists 1%Z; reflexivity); try (exists 1%Z; reflexivity); try discriminate.
    + exact cxx_syntax_proper.
    + intros y [->|[->| ->]]; split; assumption.
    + intros m D _. split; [apply Vr|apply Pr].
    + intros probes _ s o n [].
    + exists sA, dA, lsA, s1, d1, ls1, sB, dB, ls2. repeat (split; [assumption|]). exact HL.
  - destruct (decoupled_program_restart ex_reader cxx ex_lambda false (fun _ => true) ex_np px_files y6 y3 y33 ex_axs (ex_bcs_of NEUMANN) (1 / 100)
      [(fun x y _ _ _ => x * y); (fun _ _ _ _ nu => nu)] (fun _ _ _ _ _ => 0) (px_conf 0 6) (px_conf 0 3) (px_conf 3 3) [3/2; -(1/2)] (1/2) [1/2] [("body0", px_rows)] "ROMA_ET_AL_1999"
      (KSP "forces" "/run/forces.info") sr po 6 6 6 d0 xA eA lxA x1 e1 lx1 3 3)
      as (sB & dB & ls2 & EB & HL & _); try assumption; try reflexivity; try apply Sm; try (cbn; lia); try (left; exists 1%Z; reflexivity); try (exists 1%Z; reflexivity); try discriminate.
    + exact cxx_syntax_proper.
    + intros y [->|[->| ->]]; repeat split; assumption.
    + intros m D _. split; [apply Vr|]. split; apply Pr.
    + intros probes _ s o n [].
    + exists xA, eA, lxA, x1, e1, lx1, sB, dB, ls2. repeat (split; [assumption|]). exact HL.
  - destruct (oscillating_program_restart ex_reader cxx ex_lambda false (fun _ => true) ex_np px_files y6 y3 y33 ex_axs (ex_bcs_of NEUMANN) (1 / 100)
      [(fun x y _ _ _ => x * y); (fun _ _ _ _ nu => nu)] (fun _ _ _ _ _ => 0) (px_conf 0 6) (px_conf 0 3) (px_conf 3 3) [3/2; -(1/2)] (1/2) [1/2] "body0" px_rows "ROMA_ET_AL_1999"
      (KSP "forces" "/run/forces.info") 1 1 1 sr po (fun _ _ _ b => b) 6 6 6 d0 rA hA lrA r1 h1 lr1 3 3)
      as (sB & dB & ls2 & EB & HL & _); try assumption; try reflexivity; try apply Sm; try (cbn; lia); try (left; exists 1%Z; reflexivity); try (exists 1%Z; reflexivity); try discriminate.
    + exact cxx_syntax_proper.
    + intros y [->|[->| ->]]; repeat split; assumption.
    + intros m D _. split; [apply Vr|]. split; [apply Pr|]. intros A. apply Pr.
    + intros probes _ s o n [].
    + exists rA, hA, lrA, r1, h1, lr1, sB, dB, ls2. repeat (split; [assumption|]). exact HL.
Qed.
