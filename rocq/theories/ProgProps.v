(** C65: the program petibm-navierstokes from its command line and files to its
    end. *)
From Coq Require Import Ascii String Permutation ZifyBool.
From Verif Require Import Prelude ZSum RSum TypesModel GridModel GridSpec GridProof IndexModel IndexSpec BoundaryModel BoundarySpec BoundaryProof
  OperatorModel OperatorSpec MatModel BnModel SolutionModel ConvModel DeltaModel ProbeModel NSModel NSSpec NameModel DriverModel DriverSpec DriverProps
  ConfigModel ConfigSpec ConfigProof ConfigSetup ConfigInit ConfigUse ConfigProps SimProps ProgModel ProgSpec ProgProof ProgRun.
Local Open Scope R_scope.
Local Open Scope string_scope.

(** C65. The program runs the simulation of its configuration: it is [ns_main],
    the program of C38-C40, with the mesh, the boundary conditions, the initial
    fields, the time step, the viscosity, the weights of the schemes, the
    steps, the output frequencies, the solvers and the probes of the
    configuration. *)
Theorem program_runs_configuration : forall rd lambdify amgx load np y axs bcs nu vel pe c wc wi wd,
  documented rd lambdify amgx load np y axs bcs nu vel pe c wc wi wd ->
  exists m D types values U0 p0 probes,
    mesh_setup m D /\ bc_fits m types /\ m_dim m = lenZ axs /\ (forall d, ds_np D d = np d) /\
    (forall ax d, In ax axs -> In (ax_dir ax, d) doc_directions -> built_axis m ax d) /\
    (forall f loc ty v, In (f, loc, ty, v) bcs -> types f loc = ty /\ values f loc = v) /\
    (forall id f i j k, nthZ (packed_layout (m_dim m) D) id = Some (f, (i, j, k)) ->
       exists e, nthZ vel f = Some e /\ U0 id = e (xyz m f 0 i) (xyz m f 1 j) (xyz m f 2 k) 0 nu) /\
    (forall id i j k, nthZ (field_layout D 3) id = Some (i, j, k) -> p0 id = pe (xyz m 3 0 i) (xyz m 3 1 j) (xyz m 3 2 k) 0 nu) /\
    describes_probes rd (lenZ axs) (rc_out c) y probes /\
    forall solver_result probe_ops fuel d,
      ns_program rd lambdify amgx load np solver_result probe_ops fuel (Some y) d =
      ns_main fuel (mkConf (rc_out c) (rc_logs c) (rc_start c) (rc_nt c) (rc_nsave c) (rc_nrestart c)) m D
        (mkPar (rc_dt c) nu (rc_bn c) wc wi wd (match rc_poisson c with AmgX _ _ => true | KSP _ _ => false end))
        types values (rc_t c) U0 p0 (probe_ops probes) (convection m D) (solver_result (rc_velocity c)) (solver_result (rc_poisson c)) d.
Proof.
  intros * H. destruct (program_lemma _ _ _ _ _ _ _ _ _ _ _ _ _ _ _ H) as (m & D & types & values & U0 & p0 & probes & _ & A).
  exists m, D, types, values, U0, p0, probes. exact A.
Qed.
Print Assumptions program_runs_configuration.

(** C65. A new run (startStep 0) of a documented configuration completes: it
    performs nt steps and ends at time t + nt dt; if the probes write elsewhere,
    the file of every nsave-th step exists and holds the state after that many
    steps of the initial state. *)
Theorem program_completes : forall rd lambdify amgx load np y axs bcs nu vel pe c wc wi wd solver_result probe_ops fuel d,
  documented rd lambdify amgx load np y axs bcs nu vel pe c wc wi wd ->
  rc_start c = 0%Z -> rc_nsave c <> 0%Z -> rc_nrestart c <> 0%Z -> (1 <= rc_bn c)%Z -> (rc_nt c <= Z.of_nat fuel)%Z ->
  exists s2 d2 tr, ns_program rd lambdify amgx load np solver_result probe_ops fuel (Some y) d = Ok (Some (s2, d2, tr)) /\
    s_ite s2 = Z.max 0 (rc_nt c) /\ s_t s2 = rc_t c + INR (Z.to_nat (rc_nt c)) * rc_dt c /\ map fst tr = zrange 0 (Z.max 0 (rc_nt c) + 1) /\
    let P := mkPar (rc_dt c) nu (rc_bn c) wc wi wd (match rc_poisson c with AmgX _ _ => true | KSP _ _ => false end) in
    exists m D ops s1 probes, mesh_setup m D /\ m_dim m = lenZ axs /\ s_t s1 = rc_t c /\
      (forall id f i j k, nthZ (packed_layout (m_dim m) D) id = Some (f, (i, j, k)) ->
         exists e, nthZ vel f = Some e /\ s_U s1 id = e (xyz m f 0 i) (xyz m f 1 j) (xyz m f 2 k) 0 nu) /\
      describes_probes rd (lenZ axs) (rc_out c) y probes /\
      (probes_elsewhere (rc_out c) (probe_ops probes) -> forall k, (k <= Z.to_nat (rc_nt c))%nat -> (rc_nsave c | Z.of_nat k)%Z ->
         exists sk F, ns_steps m D P ops (convection m D) (solver_result (rc_velocity c)) (solver_result (rc_poisson c)) k s1 = Ok sk /\
           d2 (solution_path (rc_out c) (Z.of_nat k)) = Some F /\ holds_solution m D sk F).
Proof.
  intros rd lam amgx load np y axs bcs nu vel pe c wc wi wd sr po fuel d Hd H0 Hns Hnr Hbn Hf.
  destruct (program_runs_configuration _ _ _ _ _ _ _ _ _ _ _ _ _ _ _ Hd) as (m & D & types & values & U0 & p0 & probes & Hs & Hb & Md & _ & _ & _ & HU & _ & Hp & E).
  rewrite E. clear E. set (conf := mkConf _ _ _ _ _ _). set (P := mkPar _ _ _ _ _ _ _).
  destruct (simulation_completes m D P types values (rc_t c) U0 p0 (sr (rc_velocity c)) (sr (rc_poisson c)) conf (po probes) fuel d Hs Hb Hbn H0 Hns Hnr Hf)
    as (ops & s1 & s2 & d2 & tr & St & E).
  destruct (run_length m D P types values (rc_t c) U0 p0 (convection m D) _ _ conf (po probes) fuel d s2 d2 tr ops s1 St E) as (L1 & L2 & L3 & L4 & L5 & _).
  assert (Et : s_t s1 = rc_t c /\ s_U s1 = U0).
  { pose proof St as (s0 & w & I1 & I2). apply (NSProof.ns_init_inv _ _ _ _ _ _ _ _ _ _ _ (setup_facts _ _ Hs) Hb) in I1. destruct I1 as (B & _ & _ & ->).
    unfold io_initial in I2. cbn [s_ite] in I2. change (c_nstart conf) with (rc_start c) in I2. rewrite H0 in I2. cbn in I2. injection I2 as <- _. split; reflexivity. }
  destruct Et as [Et Eu].
  exists s2, d2, tr. split; [exact E|]. change (c_nstart conf) with (rc_start c) in *. change (c_nt conf) with (rc_nt c) in *. rewrite H0 in *.
  split; [lia|]. split; [rewrite L4, Et; reflexivity|]. split; [exact L5|].
  cbv zeta. exists m, D, ops, s1, probes. rewrite Eu. repeat (split; [first [assumption|reflexivity]|]).
  intros He k Hk Hdv.
  destruct (output_schedule m D P types values (rc_t c) U0 p0 (convection m D) _ _ conf (po probes) fuel d s2 d2 tr ops s1 Hs St E He ltac:(cbn; lia) Hns Hnr) as (A & _ & C).
  change (c_nstart conf) with (rc_start c) in *. change (c_nt conf) with (rc_nt c) in *. change (c_nsave conf) with (rc_nsave c) in *. rewrite H0 in *.
  destruct k as [|k].
  - destruct (C eq_refl) as (F & EF & HF). exists s1, F. split; [reflexivity|]. split; [exact EF|exact HF].
  - assert (Ex : exists sk, ns_steps m D P ops (convection m D) (sr (rc_velocity c)) (sr (rc_poisson c)) (S k) s1 = Ok sk).
    { clear - L2 Hk. remember (Z.to_nat (rc_nt c)) as n. clear Heqn. revert s2 L2. induction n as [|n IH]; intros s2 L2; [lia|].
      destruct (Nat.eq_dec (S k) (S n)) as [Heq|Hne]; [rewrite Heq; eauto|]. cbn [ns_steps] in L2. apply bind_ok_inv in L2. destruct L2 as (s' & L2 & _).
      eapply IH; [lia|exact L2]. }
    destruct Ex as (sk & Ek). destruct (A (S k) sk ltac:(lia) Ek) as (A1 & _). destruct (A1 (or_introl Hdv)) as (F & EF & HF & _).
    exists sk, F. split; [exact Ek|]. split; [exact EF|exact HF].
Qed.
Print Assumptions program_completes.

(** C65. The command line: when the directories can be made and the files read,
    the program runs the settings in which each key has its last definition. *)
Theorem command_line_runs_configuration : forall rd lambdify amgx load np solver_result probe_ops cli fs mkdir fuel d,
  mkdir (the_output cli) = true -> mkdir (the_logs cli) = true -> Forall (usable fs) (config_files cli) ->
  exists st, (forall k v, assoc st k = Some v <-> last_def (all_definitions cli fs) k v) /\
    ns_app rd lambdify amgx load np solver_result probe_ops cli fs mkdir fuel d =
    ns_program rd lambdify amgx load np solver_result probe_ops fuel (Some (YMap st)) d.
Proof.
  intros * H1 H2 H3. destruct (settings_precedence cli fs mkdir H1 H2 H3) as (st & E & _ & A). exists st. split; [exact A|].
  unfold ns_app. rewrite E. reflexivity.
Qed.
Print Assumptions command_line_runs_configuration.

(** C65. Resuming by editing the configuration: configuration A computes k + j
    steps; configuration 1 is A with k steps and is run first; configuration 2
    is A with startStep increased by k and j steps and is run on the files left
    by 1. If step k is one at which restart data are written, the run of 2
    completes and ends with the fields of the run of A. *)
Theorem program_restart : forall rd lambdify amgx load np yA y1 y2 axs bcs nu vel pe cA c1 c2 wc wi wd solver_result probe_ops
    fuelA fuel1 fuel2 d sA dA trA s1 d1 tr1 k j,
  documented rd lambdify amgx load np yA axs bcs nu vel pe cA wc wi wd ->
  documented rd lambdify amgx load np y1 axs bcs nu vel pe c1 wc wi wd ->
  documented rd lambdify amgx load np y2 axs bcs nu vel pe c2 wc wi wd ->
  same_simulation yA y1 cA c1 -> same_simulation y2 y1 c2 c1 ->
  (forall f loc v, ~ In (f, loc, CONVECTIVE, v) bcs) ->
  (forall m D, createMesh rd np (Some y1) = Ok (Some (m, D)) ->
     vsolve_respects (n_velocity m) (solver_result (rc_velocity c1)) /\ psolve_respects (n_pressure m) (solver_result (rc_poisson c1))) ->
  (forall probes, describes_probes rd (lenZ axs) (rc_out c1) y1 probes -> probes_elsewhere (rc_out c1) (probe_ops probes)) ->
  rc_start cA = rc_start c1 -> (0 <= rc_start c1)%Z -> rc_nt c1 = Z.of_nat k -> (1 <= k)%nat -> rc_nt cA = Z.of_nat (k + j) ->
  rc_start c2 = (rc_start c1 + Z.of_nat k)%Z -> rc_nt c2 = Z.of_nat j ->
  ns_program rd lambdify amgx load np solver_result probe_ops fuelA (Some yA) d = Ok (Some (sA, dA, trA)) ->
  ns_program rd lambdify amgx load np solver_result probe_ops fuel1 (Some y1) d = Ok (Some (s1, d1, tr1)) ->
  (rc_nrestart c1 | rc_start c2)%Z ->
  (rc_nsave c1 | rc_start c2)%Z \/ d (solution_path (rc_out c1) (rc_start c2)) = None ->
  rc_nsave c2 <> 0%Z -> rc_nrestart c2 <> 0%Z -> (j <= fuel2)%nat ->
  exists sB dB trB, ns_program rd lambdify amgx load np solver_result probe_ops fuel2 (Some y2) d1 = Ok (Some (sB, dB, trB)) /\
    exists m D, createMesh rd np (Some y1) = Ok (Some (m, D)) /\ same_fields m sA sB.
Proof.
  intros rd lam amgx load np yA y1 y2 axs bcs nu vel pe cA c1 c2 wc wi wd sr po fuelA fuel1 fuel2 d sA dA trA s1 d1 tr1 k j DA D1 D2 SA S2 Hnc Hsol Hpr
    HsA H0 Hn1 Hk HnA Hs2 Hn2 RA R1 Hdiv Hnew Hns Hnr Hfu.
  destruct (program_lemma _ _ _ _ _ _ _ _ _ _ _ _ _ _ _ D1) as (m & D & types & values & U0 & p0 & pr1 & (M1 & B1 & I1 & _) & Hs & Hb & Md & _ & _ & Ht & _ & _ & Hp1 & E1).
  destruct (program_lemma _ _ _ _ _ _ _ _ _ _ _ _ _ _ _ DA) as (mA & DA' & tyA & vaA & UA & pA & prA & (MA & BA & IA & _) & _ & _ & _ & _ & _ & _ & _ & _ & _ & EA).
  destruct (program_lemma _ _ _ _ _ _ _ _ _ _ _ _ _ _ _ D2) as (m2 & D2' & ty2 & va2 & U2 & p2 & pr2 & (M2 & B2 & I2 & _) & _ & _ & _ & _ & _ & _ & _ & _ & _ & E2).
  destruct SA as ((stA & st1 & -> & -> & Q1 & Q2) & A1 & A2 & A3 & A4 & A5 & A6).
  destruct S2 as ((st2 & st1' & -> & E0 & Q3 & Q4) & C1 & C2 & C3 & C4 & C5 & C6). injection E0 as <-.
  rewrite (createMesh_sections rd np stA st1 Q1 Q2), M1 in MA. injection MA as <- <-. rewrite (parseBCs_flow rd stA st1 Q2), B1 in BA. injection BA as <- <-.
  rewrite (ics_flow rd lam stA st1 m D Q2), I1 in IA. injection IA as <- <-.
  rewrite (createMesh_sections rd np st2 st1 Q3 Q4), M1 in M2. injection M2 as <- <-. rewrite (parseBCs_flow rd st2 st1 Q4), B1 in B2. injection B2 as <- <-.
  rewrite (ics_flow rd lam st2 st1 m D Q4), I1 in I2. injection I2 as <- <-.
  rewrite EA in RA. rewrite E1 in R1. rewrite A1, A2, A3, A4, A5, A6 in RA.
  specialize (E2 sr po fuel2 d1). rewrite C1, C2, C3, C4, C5, C6 in E2. rewrite E2.
  destruct (Hsol m D M1) as [Hv Hq].
  assert (Nc : no_convective m types).
  { eapply no_convective_read; [exact Md|apply (doc_bcs _ _ _ _ _ _ _ _ _ _ _ _ _ _ _ D1)|intros f loc ty v Hi; apply (Ht f loc ty v Hi)|exact Hnc]. }
  edestruct (simulation_restart m D (mkPar (rc_dt c1) nu (rc_bn c1) wc wi wd (match rc_poisson c1 with AmgX _ _ => true | KSP _ _ => false end))
    types values (rc_t c1) U0 p0 (sr (rc_velocity c1)) (sr (rc_poisson c1)) (po prA) (po pr1) (po pr2)
    (mkConf (rc_out c1) (rc_logs cA) (rc_start cA) (rc_nt cA) (rc_nsave cA) (rc_nrestart cA))
    (mkConf (rc_out c1) (rc_logs c1) (rc_start c1) (rc_nt c1) (rc_nsave c1) (rc_nrestart c1))
    (mkConf (rc_out c1) (rc_logs c2) (rc_start c2) (rc_nt c2) (rc_nsave c2) (rc_nrestart c2))) with (k := k) (j := j) (fuel2 := fuel2)
    as (sB & dB & trB & EB & HB); try exact RA; try exact R1; try assumption; try reflexivity.
  - exact (Hpr pr1 Hp1).
  - exists sB, dB, trB. split; [exact EB|]. exists m, D. split; [exact M1|exact HB].
Qed.
Print Assumptions program_restart.

(** * What the program does with other configurations *)

(** "type" and "config" have defaults, but only inside the section of the
    solver: without the section an exception leaves init. *)
Theorem solver_section_missing_refuted : forall amgx load name st ps,
  assoc st "parameters" = Some (YMap ps) -> assoc ps (name ++ "Solver") = None ->
  createLinSolver amgx load name (Some (YMap st)) = Err EXC.
Proof. intros * E1 E2. unfold createLinSolver. cbn [yget bind]. rewrite E1. cbn [yget bind]. rewrite E2. reflexivity. Qed.
Print Assumptions solver_section_missing_refuted.

(** The manual names default schemes; without the key the program stops with an
    error. *)
Theorem scheme_default_refuted : forall name st ps, assoc st "parameters" = Some (YMap ps) -> assoc ps name = None ->
  createTimeIntegration_node name (Some (YMap st)) = Err PETSC_ERR_ARG_OUTOFRANGE.
Proof. intros * E1 E2. unfold createTimeIntegration_node. cbn [yget bind]. rewrite E1. cbn [yget bind]. rewrite E2. reflexivity. Qed.
Print Assumptions scheme_default_refuted.

(** The scheme of the convection is not checked: the implicit Euler scheme is
    accepted and has no explicit weights, and then the whole run is the same
    whatever the convection operator is. *)
Theorem implicit_convection_refuted : forall st ps, assoc st "parameters" = Some (YMap ps) -> word_entry (YMap ps) "convection" "EULER_IMPLICIT" ->
  exists s, createTimeIntegration_node "convection" (Some (YMap st)) = Ok s /\
    forall m D P types values t0 U0 p0 conv conv' vs ps' conf mon fuel d, p_cexp P = sc_explicit s ->
      ns_main fuel conf m D P types values t0 U0 p0 mon conv vs ps' d = ns_main fuel conf m D P types values t0 U0 p0 mon conv' vs ps' d.
Proof.
  intros st ps E1 E2. exists Euler_Implicit. split; [now rewrite (scheme_read _ _ _ _ E1 E2)|]. intros * E. now apply main_noconv.
Qed.
Print Assumptions implicit_convection_refuted.

(** A volume probe whose viewer is neither "ascii" nor "hdf5" uses an
    uninitialised viewer type. *)
Theorem probe_viewer_refuted : forall rd dim out l p w v, word_entry (YMap l) "path" w -> describes_probe rd dim out (YMap l) p -> pd_kind p = VOLUME ->
  v <> "ascii" -> v <> "hdf5" ->
  createProbe rd dim (Some (YMap (set_key "viewer" (YScalar v) l))) = UB.
Proof.
  intros rd dim out l p w v Hw (l' & E0 & Hname & (fw & Hfw & Hf) & (w' & Hw' & Hpath) & Hnm & Hts & Hte & Hk) HV N1 N2. injection E0 as <-.
  set (l2 := set_key "viewer" (YScalar v) l).
  assert (G : forall k, k <> "viewer" -> assoc l2 k = assoc l k).
  { intros k Hk'. unfold l2. rewrite assoc_set_key. destruct (String.eqb_spec "viewer" k); [congruence|reflexivity]. }
  assert (Gp : assoc l2 "viewer" = Some (YScalar v)) by (unfold l2; rewrite assoc_set_key; reflexivity).
  destruct Hk as [(Ek & Hty & (v' & Hv & Hv') & Hat & Hns & (bx & dirs & Ebx & Hbx & Hnd & Hdir))|(Ek & _)]; [|congruence].
  unfold createProbe, createProbe_kind. cbn [yget bind]. rewrite Gp. rewrite !G by discriminate. rewrite (word_or_read _ _ _ _ Hty).
  cbn [decode_probetype map_get str2pt_tab assoc String.eqb Ascii.eqb Bool.eqb bind].
  assert (Eb : exists b, probe_base rd (Some (YMap l2)) = Ok b).
  { unfold probe_base. cbn [yget bind]. rewrite !G by discriminate. rewrite (word_read _ _ _ Hfw), (word_read _ _ _ Hw). cbn [as_string bind]. eauto. }
  destruct Eb as (b & Eb). rewrite Eb. cbn [bind]. rewrite Ebx. destruct (box_read' rd bx dirs Hbx Hnd) as (lo & hi & E & _). rewrite E. cbn [bind as_string_or].
  destruct (String.eqb_spec v "ascii"); [contradiction|]. destruct (String.eqb_spec v "hdf5"); [contradiction|]. reflexivity.
Qed.
Print Assumptions probe_viewer_refuted.

(** * A concrete configuration *)
Definition px_solver (c : string) : yaml := YMap [("type", YScalar "CPU"); ("config", YScalar c)].
Definition px_probe : yaml :=
  YMap [("name", YScalar "wake"); ("field", YScalar "v"); ("path", YScalar "wake.dat");
        ("box", YMap [("y", YSeq [YScalar "0.0"; YScalar "1.0"]); ("x", YSeq [YScalar "1.0"; YScalar "4.0"])])].
Definition px_point : yaml :=
  YMap [("type", YScalar "POINT"); ("field", YScalar "p"); ("path", YScalar "p.dat"); ("n_monitor", YScalar "3"); ("loc", YSeq [YScalar "1.0"; YScalar "0.0"])].
Definition px_pars (start nt : string) : yaml :=
  YMap [("dt", YScalar "0.01"); ("startStep", YScalar start); ("nt", YScalar nt); ("nsave", YScalar "3"); ("nrestart", YScalar "3");
        ("convection", YScalar "ADAMS_BASHFORTH_2"); ("diffusion", YScalar "CRANK_NICOLSON");
        ("velocitySolver", px_solver "solvers.info"); ("poissonSolver", px_solver "/etc/solvers.info");
        ("forcesSolver", px_solver "forces.info")].
(** A body, for the immersed-boundary programs (C66). *)
Definition px_body : yaml :=
  YMap [("file", YScalar "cylinder.body");
        ("kinematics", YMap [("f", YScalar "1.0"); ("D", YScalar "1.0"); ("KC", YScalar "1.0"); ("center", YSeq [YScalar "1.0"; YScalar "0.0"])])].
Definition px_yaml (outlet start nt : string) : yaml :=
  YMap [("directory", YScalar "/run"); ("output", YScalar "/run/output"); ("logs", YScalar "/run/output/logs");
        ("mesh", YSeq [ex_axis "y" "1.0" "3"; ex_axis "x" "4.0" "4"]); ("flow", ex_flow_of outlet); ("parameters", px_pars start nt);
        ("probes", YSeq [px_probe; px_point]); ("bodies", YSeq [px_body])].
Definition px_conf (start nt : Z) : runconf :=
  mkRC (1 / 100) 0 start nt 3 3 1 "ADAMS_BASHFORTH_2" "CRANK_NICOLSON" (KSP "velocity" "/run/solvers.info") (KSP "poisson" "/etc/solvers.info")
       "/run/output" "/run/output/logs".
Definition px_wake : pdesc :=
  mkPD VOLUME "wake" "/run/output/wake.dat" (mkPC 1 1 0 1000000000000) false (1 / 1000000) 0
       (fun d => if (d =? 0)%Z then 1 else 0) (fun d => if (d =? 0)%Z then 4 else 1) [].
Definition px_p : pdesc :=
  mkPD POINT "unnamed" "/run/output/p.dat" (mkPC 3 3 0 1000000000000) false 0 0 (fun _ => 0) (fun _ => 0) [1; 0].

Example program_case : forall to bo ss ns s n, In (to, bo) doc_bctypes -> bo <> PERIODIC -> to_int ex_reader ss = Some s -> to_int ex_reader ns = Some n ->
  documented ex_reader ex_lambda false (fun _ => true) ex_np (px_yaml to ss ns) ex_axs (ex_bcs_of bo) (1 / 100)
    [(fun x y _ _ _ => x * y); (fun _ _ _ _ nu => nu)] (fun _ _ _ _ _ => 0) (px_conf s n) [3/2; -(1/2)] (1/2) [1/2].
Proof.
  intros to bo ss ns s n Ho Hp Hs Hn. destruct (configuration_case_of to bo Ho Hp) as (C1 & C2 & C3 & C4 & C5). destruct (initial_conditions_case_of to) as (I1 & I2).
  constructor; try assumption.
  - destruct C1 as (st & ays & fl & bys & parts & E0 & A1 & A2 & A3 & A4 & A5 & A6). injection E0 as <-.
    injection A1 as <-. injection A3 as <-. eexists. do 4 eexists. split; [reflexivity|]. split; [reflexivity|]. split; [exact A2|]. split; [reflexivity|]. split; [exact A4|]. split; [exact A5|exact A6].
  - left. reflexivity.
  - split; [|split; [reflexivity|exact C5]]. intros d Hd. unfold ex_np. destruct (d =? 0)%Z; lia.
  - destruct I1 as (st & fl & ws & E0 & A1 & A2). injection E0 as <-. injection A1 as <-. do 3 eexists. split; [reflexivity|]. split; [reflexivity|]. exact A2.
  - cbn. lia.
  - exists (match px_yaml to ss ns with YMap l => l | _ => [] end), (match px_pars ss ns with YMap l => l | _ => [] end), "/run".
    assert (Re : forall k x v, assoc (match px_pars ss ns with YMap l => l | _ => [] end) k = Some (YScalar x) -> to_real ex_reader x = Some v ->
      real_entry ex_reader (YMap (match px_pars ss ns with YMap l => l | _ => [] end)) k v) by (intros; do 2 eexists; eauto).
    assert (Ie : forall k x v, assoc (match px_pars ss ns with YMap l => l | _ => [] end) k = Some (YScalar x) -> to_int ex_reader x = Some v ->
      int_entry ex_reader (YMap (match px_pars ss ns with YMap l => l | _ => [] end)) k v) by (intros; do 2 eexists; eauto).
    split; [reflexivity|]. split; [reflexivity|]. split; [eexists; split; reflexivity|]. split; [eexists; split; reflexivity|]. split; [eexists; split; reflexivity|].
    split; [apply (Re _ "0.01"); reflexivity|]. split; [left; split; reflexivity|]. split; [right; apply (Ie _ ss); [reflexivity|exact Hs]|].
    split; [apply (Ie _ ns); [reflexivity|exact Hn]|]. split; [apply (Ie _ "3"); reflexivity|]. split; [apply (Ie _ "3"); reflexivity|].
    split; [left; split; reflexivity|]. split; [eexists; split; reflexivity|]. split; [eexists; split; reflexivity|]. split.
    + do 2 eexists. split; [reflexivity|]. split; [right; eexists; split; reflexivity|]. exists "/run/solvers.info". split.
      * right. right. exists "solvers.info". split; [eexists; split; reflexivity|]. split; [discriminate|]. split; reflexivity.
      * left. split; [reflexivity|]. split; [reflexivity|]. right. reflexivity.
    + do 2 eexists. split; [reflexivity|]. split; [right; eexists; split; reflexivity|]. exists "/etc/solvers.info". split.
      * right. left. exists "etc/solvers.info". split; [eexists; split; reflexivity|]. reflexivity.
      * left. split; [reflexivity|]. split; [reflexivity|]. right. reflexivity.
  - cbn. tauto.
  - cbn. tauto.
  - exists [px_wake; px_p]. eexists. split; [reflexivity|]. right. eexists. split; [reflexivity|]. repeat constructor.
    + eexists. split; [reflexivity|]. split; [right; eexists; split; reflexivity|]. split; [exists "v"; split; [eexists; split; reflexivity|cbn; tauto]|].
      split; [exists "wake.dat"; split; [eexists; split; reflexivity|reflexivity]|]. split; [left; split; reflexivity|]. split; [left; split; reflexivity|].
      split; [left; split; reflexivity|]. left. split; [reflexivity|]. split; [left; split; reflexivity|].
      split; [exists "ascii"; split; [left; split; reflexivity|left; split; reflexivity]|]. split; [left; split; reflexivity|]. split; [left; split; reflexivity|].
      do 2 eexists. split; [reflexivity|]. split.
      { constructor; [|constructor; [|constructor]].
        - instantiate (1 := ("y", 0, 1)). exists "0.0", "1.0". cbn. split; [reflexivity|]. split; [tauto|]. split; reflexivity.
        - instantiate (1 := ("x", 1, 4)). exists "1.0", "4.0". cbn. split; [reflexivity|]. split; [tauto|]. split; reflexivity. }
      split; [cbn; repeat constructor; cbn; intuition discriminate|].
      intros w a b d Hi Hd. cbn in Hi, Hd. destruct Hi as [Hi|[Hi|[]]]; injection Hi as <- <- <-;
        repeat (destruct Hd as [Hd|Hd]; [try discriminate; injection Hd as <-; split; reflexivity|]); destruct Hd.
    + eexists. split; [reflexivity|]. split; [left; split; reflexivity|]. split; [exists "p"; split; [eexists; split; reflexivity|cbn; tauto]|].
      split; [exists "p.dat"; split; [eexists; split; reflexivity|reflexivity]|].
      split; [right; do 2 eexists; split; [reflexivity|split; reflexivity]|]. split; [left; split; reflexivity|].
      split; [left; split; reflexivity|]. right. split; [reflexivity|]. split; [eexists; split; reflexivity|].
      exists ["1.0"; "0.0"]. split; [reflexivity|]. split; [repeat constructor|reflexivity].
Qed.

(** The runs of this configuration with 6 steps, and with 3 and 3 steps: they
    complete and agree. *)
Example program_restart_case : exists yA y1 y2 sA dA trA s1 d1 tr1 sB dB trB m,
  let run y d := ns_program ex_reader ex_lambda false (fun _ => true) ex_np (fun _ _ b => b) (fun _ _ => []) 6 (Some y) d in
  run yA (fun _ => None) = Ok (Some (sA, dA, trA)) /\ run y1 (fun _ => None) = Ok (Some (s1, d1, tr1)) /\ run y2 d1 = Ok (Some (sB, dB, trB)) /\
  s_ite sA = 6%Z /\ s_ite s1 = 3%Z /\ same_fields m sA sB.
Proof.
  assert (Ho : In ("NEUMANN", NEUMANN) doc_bctypes) by (cbn; tauto).
  pose proof (program_case "NEUMANN" NEUMANN "0" "6" 0 6 Ho ltac:(discriminate) eq_refl eq_refl) as DA.
  pose proof (program_case "NEUMANN" NEUMANN "0" "3" 0 3 Ho ltac:(discriminate) eq_refl eq_refl) as D1.
  pose proof (program_case "NEUMANN" NEUMANN "3" "3" 3 3 Ho ltac:(discriminate) eq_refl eq_refl) as D2.
  set (sr := fun (_ : linsolver) (_ b : vec) => b). set (po := fun (_ : list pdesc) (_ : nsstate) => @nil fsop). set (d0 := fun _ : string => @None file).
  destruct (program_completes _ _ _ _ _ _ _ _ _ _ _ _ _ _ _ sr po 6 d0 DA eq_refl ltac:(discriminate) ltac:(discriminate) ltac:(cbn; lia) ltac:(cbn; lia)) as (sA & dA & trA & EA & IA & _).
  destruct (program_completes _ _ _ _ _ _ _ _ _ _ _ _ _ _ _ sr po 6 d0 D1 eq_refl ltac:(discriminate) ltac:(discriminate) ltac:(cbn; lia) ltac:(cbn; lia)) as (s1 & d1 & tr1 & E1 & I1 & _).
  assert (Sm : forall a b c e i j, same_simulation (px_yaml "NEUMANN" a b) (px_yaml "NEUMANN" c e) (px_conf i j) (px_conf 0 3)).
  { intros. split; [do 2 eexists; repeat (split; [reflexivity|]); reflexivity|]. repeat split. }
  edestruct (program_restart ex_reader ex_lambda false (fun _ => true) ex_np (px_yaml "NEUMANN" "0" "6") (px_yaml "NEUMANN" "0" "3") (px_yaml "NEUMANN" "3" "3"))
    with (solver_result := sr) (probe_ops := po) (fuel2 := 6%nat) (k := 3%nat) (j := 3%nat) (d := d0) as (sB & dB & trB & EB & m & D & _ & HB);
    [exact DA|exact D1|exact D2|apply Sm|apply Sm| | | |reflexivity|cbn; lia|reflexivity|lia|reflexivity|reflexivity|reflexivity|exact EA|exact E1| | | | | |].
  - intros f loc v Hi. unfold ex_bcs_of in Hi. cbn [In] in Hi. repeat (destruct Hi as [Hi|Hi]; [discriminate|]). destruct Hi.
  - intros m D _. split; [intros g g' b b' _ H; exact H|intros g g' b b' H; exact H].
  - intros probes _ s o n [].
  - exists 1%Z. reflexivity.
  - left. exists 1%Z. reflexivity.
  - discriminate.
  - discriminate.
  - lia.
  - exists (px_yaml "NEUMANN" "0" "6"), (px_yaml "NEUMANN" "0" "3"), (px_yaml "NEUMANN" "3" "3"), sA, dA, trA, s1, d1, tr1, sB, dB, trB, m.
    cbv zeta. split; [exact EA|]. split; [exact E1|]. split; [exact EB|]. split; [rewrite IA; reflexivity|]. split; [rewrite I1; reflexivity|]. exact HB.
Qed.
