(** C75: the program of examples/api_examples/liddrivencavity2d. *)
From Coq Require Import Ascii String Permutation ZifyBool Lia Lra List.
Import ListNotations.
From Verif Require Import Prelude ZSum RSum TypesModel GridModel GridSpec GridProof IndexModel IndexSpec BoundaryModel BoundarySpec BoundaryProof
  OperatorModel OperatorSpec MatModel BnModel SolutionModel ConvModel DeltaModel ProbeModel NSModel NSSpec NSProof NameModel DriverModel DriverSpec DriverProps
  ConfigModel ConfigSpec ConfigProof ConfigSetup ConfigInit ConfigUse ConfigProps SimProps ProgModel ProgSpec ProgProof ProgRun GradProof AdjProof UniqueProof ApiModel ApiSpec ApiProof.
Local Open Scope R_scope.
Local Open Scope string_scope.

(** C75. On every documented configuration, whatever the linear solvers return,
    the program completes and writes the fields that the steps of the
    Navier-Stokes solver give: 2001 steps of 0.01 with viscosity 0.01, explicit
    Euler for convection, implicit Euler for diffusion, from the mesh, boundary
    conditions and initial fields of the configuration. Of the other files it
    touches only the grid file. *)
Theorem api_example_runs : forall rd lambdify amgx load np y axs bcs nu vel pe out velocity poisson sr d,
  api_documented rd lambdify amgx load np y axs bcs nu vel pe out velocity poisson ->
  exists m D types values U0 p0 ops s0 s a d2,
    mesh_setup m D /\ bc_fits m types /\ m_dim m = lenZ axs /\ (forall d, ds_np D d = np d) /\
    (forall ax d, In ax axs -> In (ax_dir ax, d) doc_directions -> built_axis m ax d) /\
    (forall f loc ty v, In (f, loc, ty, v) bcs -> types f loc = ty /\ values f loc = v) /\
    (forall id f i j k, nthZ (packed_layout (m_dim m) D) id = Some (f, (i, j, k)) ->
       exists e, nthZ vel f = Some e /\ U0 id = e (xyz m f 0 i) (xyz m f 1 j) (xyz m f 2 k) 0 nu) /\
    (forall id i j k, nthZ (field_layout D 3) id = Some (i, j, k) -> p0 id = pe (xyz m 3 0 i) (xyz m 3 1 j) (xyz m 3 2 k) 0 nu) /\
    ns_init m D (mkPar (1/100) (1/100) 1 [1] 1 [] false) types values 0 0 U0 p0 = Ok (ops, s0) /\
    ns_steps m D (mkPar (1/100) (1/100) 1 [1] 1 [] false) ops (convection m D) (sr velocity) (sr poisson) 2001 s0 = Ok s /\
    api_program rd lambdify amgx load np sr (Some y) d = Ok (m, D, a, d2) /\
    (exists F, d2 (out ++ "/0002000.h5") = Some F /\ DriverSpec.holds_velocity m D (s_U s) F /\ holds_pressure m D (s_p s) F) /\
    (forall p, p <> out ++ "/grid.h5" -> p <> out ++ "/0002000.h5" -> d2 p = d p).
Proof.
  intros * H. destruct (api_lemma _ _ _ _ _ _ _ _ _ _ _ _ _ _ sr d H) as (m & D & types & values & U0 & p0 & ops & s0 & s & d2 & _ & A1 & A2 & A3 & A4 & A5 & A6 & A7 & A8 & A9 & A10 & (a & A11 & _) & A12 & A13).
  exists m, D, types, values, U0, p0, ops, s0, s, a, d2. repeat (split; [assumption|]). exact A13.
Qed.
Print Assumptions api_example_runs.

Lemma documented_api rd lambdify amgx load np y axs bcs nu vel pe c wc wi wd :
  documented rd lambdify amgx load np y axs bcs nu vel pe c wc wi wd ->
  api_documented rd lambdify amgx load np y axs bcs nu vel pe (rc_out c) (rc_velocity c) (rc_poisson c).
Proof.
  intros [Hz Hd H1 H2 H3 H4 H5 Hi Hv Hr Hc Hdf Hp]. constructor; try assumption.
  destruct Hr as (st & ps & dir & E & Eps & Edir & Eout & Elogs & Edt & Et & Ess & Ent & Ens & Enr & Ebn & Ec & Ed & Ev & Epo). exists st, ps, dir. repeat (split; [assumption|]). exact Epo.
Qed.

(** C75. The program and petibm-navierstokes agree: the same configuration,
    completed with the parameters that the source of the example fixes and 2001
    steps, gives the same velocity and pressure, entry by entry. *)
Theorem api_example_agrees : forall rd lambdify amgx load np y axs bcs vel pe c sr probe_ops fuel d,
  documented rd lambdify amgx load np y axs bcs (1/100) vel pe c [1] 1 [] ->
  rc_dt c = 1/100 -> rc_t c = 0 -> rc_start c = 0%Z -> rc_nt c = 2001%Z -> rc_bn c = 1%Z -> (exists name file, rc_poisson c = KSP name file) ->
  rc_nsave c <> 0%Z -> rc_nrestart c <> 0%Z -> (2001 <= fuel)%nat ->
  exists m D a d1 s d2 tr,
    api_program rd lambdify amgx load np sr (Some y) d = Ok (m, D, a, d1) /\
    ns_program rd lambdify amgx load np sr probe_ops fuel (Some y) d = Ok (Some (s, d2, tr)) /\
    s_ite s = 2001%Z /\ a_U a = s_U s /\ a_p a = s_p s.
Proof.
  intros rd lam amgx load np y axs bcs vel pe c sr po fuel d Hd Edt Et H0 Hnt Hbn (name & file & Ep) Hns Hnr Hfu.
  destruct (program_lemma _ _ _ _ _ _ _ _ _ _ _ _ _ _ _ Hd) as (m & D & types & values & U0 & p0 & probes & (M1 & B1 & I1 & _) & Hs & Hb & _ & _ & _ & _ & _ & _ & _ & E).
  destruct (api_lemma _ _ _ _ _ _ _ _ _ _ _ _ _ _ sr d (documented_api _ _ _ _ _ _ _ _ _ _ _ _ _ _ _ Hd))
    as (m' & D' & ty' & va' & U' & p' & ops & s0 & s & d1 & (M2 & B2 & I2) & _ & _ & _ & _ & _ & _ & _ & _ & HI & Hk & (a & Ea & EU & Epp) & _).
  rewrite M1 in M2. injection M2 as <- <-. rewrite B1 in B2. injection B2 as <- <-. rewrite I1 in I2. injection I2 as <- <-.
  specialize (E sr po fuel d). rewrite Edt, Et, Hbn, Ep in E. cbv iota in E. change (mkPar (1/100) (1/100) 1 [1] 1 [] false) with api_par in E. rewrite <- Ep in E.
  set (conf := mkConf _ _ _ _ _ _) in E.
  destruct (simulation_completes m D api_par types values 0 U0 p0 (sr (rc_velocity c)) (sr (rc_poisson c)) conf (po probes) fuel d Hs Hb ltac:(cbn; lia) H0 Hns Hnr ltac:(cbn; lia))
    as (ops' & s1 & s2 & d2 & tr & St & E2).
  destruct (run_length m D api_par types values 0 U0 p0 (convection m D) _ _ conf (po probes) fuel d s2 d2 tr ops' s1 St E2) as (L1 & L2 & L3 & L4 & L5 & _).
  assert (Es : ops' = ops /\ s1 = s0).
  { destruct St as (s0' & w & J1 & J2). change (c_nstart conf) with (rc_start c) in J1. rewrite H0, HI in J1. injection J1 as <- <-. split; [reflexivity|].
    pose proof HI as HI'. apply (ns_init_inv _ _ _ _ _ _ _ _ _ _ _ (setup_facts _ _ Hs) Hb) in HI'. destruct HI' as (B & _ & _ & ->).
    unfold io_initial in J2. cbn in J2. now injection J2 as <- _. }
  destruct Es as [-> ->]. change (c_nt conf) with (rc_nt c) in L2. rewrite Hnt in L2. change (Z.to_nat 2001) with 2001%nat in L2. rewrite Hk in L2. injection L2 as <-.
  exists m, D, a, d1, s, d2, tr. split; [exact Ea|]. split; [now rewrite E|]. split; [|auto].
  change (c_nstart conf) with (rc_start c) in L3. change (c_nt conf) with (rc_nt c) in L3. lia.
Qed.
Print Assumptions api_example_agrees.

(** * Two statements about the example that do not hold *)

(** README.md: "0002000.h5 contains the solution of the flow variables after
    2000 time steps". It holds the fields after 2001 steps (api_example_runs),
    so whenever the last step changes something the statement is wrong. *)
Theorem api_file_after_2000_steps_refuted : forall rd lambdify amgx load np y axs bcs nu vel pe out velocity poisson sr d,
  api_documented rd lambdify amgx load np y axs bcs nu vel pe out velocity poisson ->
  exists m D ops s0 s s' a d2 F,
    api_program rd lambdify amgx load np sr (Some y) d = Ok (m, D, a, d2) /\ d2 (out ++ "/0002000.h5") = Some F /\
    ns_steps m D (mkPar (1/100) (1/100) 1 [1] 1 [] false) ops (convection m D) (sr velocity) (sr poisson) 2000 s0 = Ok s /\
    advance m D (mkPar (1/100) (1/100) 1 [1] 1 [] false) ops (convection m D) (sr velocity) (sr poisson) s = Ok s' /\
    ((exists id f p, nthZ (packed_layout (m_dim m) D) id = Some (f, p) /\ s_U s' id <> s_U s id) -> ~ DriverSpec.holds_velocity m D (s_U s) F) /\
    ((exists id p, nthZ (field_layout D 3) id = Some p /\ s_p s' id <> s_p s id) -> ~ holds_pressure m D (s_p s) F).
Proof.
  intros * H. destruct (api_lemma _ _ _ _ _ _ _ _ _ _ _ _ _ _ sr d H) as (m & D & types & values & U0 & p0 & ops & s0 & s' & d2 & _ & Hs & A2 & A3 & A4 & A5 & A6 & A7 & A8 & A9 & Hk & (a & A11 & _) & (F & EF & HU & Hp) & _).
  change 2001%nat with (S 2000) in Hk. cbn [ns_steps] in Hk. apply bind_ok_inv in Hk. destruct Hk as (s & Hk & Ha).
  exists m, D, ops, s0, s, s', a, d2, F. split; [exact A11|]. split; [exact EF|]. split; [exact Hk|]. split; [exact Ha|]. split.
  - intros (id & f & p & Hid & Hne) HU'. pose proof (GradProof.velocity_row m D id f p (setup_facts _ _ Hs) Hid) as (Hf & _).
    destruct (HU f Hf) as (l & E & _ & G). destruct (HU' f Hf) as (l' & E' & _ & G'). rewrite E in E'. injection E' as <-.
    specialize (G id p Hid). rewrite (G' id p Hid) in G. injection G as G. now apply Hne.
  - intros (id & p & Hid & Hne) (l' & E' & _ & G'). destruct Hp as (l & E & _ & G). rewrite E in E'. injection E' as <-.
    specialize (G id p Hid). rewrite (G' id p Hid) in G. injection G as G. now apply Hne.
Qed.
Print Assumptions api_file_after_2000_steps_refuted.

(** The viscosity is fixed in the source, and the config.yaml of the example
    has no "nu". The initial conditions need the entry: on every such
    configuration the program stops with PETSC_ERR_USER_INPUT before the first
    step. *)
Theorem api_example_configuration_refuted : forall rd lambdify amgx load np y axs bcs out sr d,
  describes rd y axs bcs -> (lenZ axs = 2 \/ lenZ axs = 3)%Z -> Permutation (map ax_dir axs) (firstn (length axs) ["x"; "y"; "z"]) ->
  Forall axis_ok axs -> bcs_ok (lenZ axs) bcs ->
  (forall d, (0 <= d < 3)%Z -> (1 <= np d)%Z) -> (lenZ axs = 2%Z -> np 2%Z = 1%Z) ->
  (forall d n, axis_cells axs d n -> (np d <= n)%Z /\ ((forall v, ~ In (0%Z, (2 * d)%Z, PERIODIC, v) bcs) -> (np d < n)%Z)) ->
  word_entry y "output" out -> without_nu y ->
  api_program rd lambdify amgx load np sr (Some y) d = Err PETSC_ERR_USER_INPUT.
Proof.
  intros rd lam amgx load np y axs bcs out sr d Hd H1 H2 H3 H4 H5 H6 H7 Ho (st & fl & -> & Ef & En).
  destruct (configuration_builds_simulation rd _ axs bcs np Hd H1 H2 H3 H4 H5 H6 H7) as (m & D & types & values & Em & _ & Hs & _).
  destruct (XdmfProps.grid_file_written m D (grid_path out) d Hs) as (w & _ & Ew & _).
  unfold api_program. rewrite Em. cbn [used bind yget_mut yget]. rewrite (word_read _ _ _ Ho). cbn [as_string bind]. rewrite Ew. cbn [bind].
  unfold setInitialConditions. cbn [yget bind]. rewrite Ef. cbn [yget bind]. rewrite En. reflexivity.
Qed.
Print Assumptions api_example_configuration_refuted.

(** * The configuration of the example *)
(** examples/api_examples/liddrivencavity2d/config.yaml with the entries that
    getSettings adds when it is run in /run; [fl] and [ps] are added to the
    sections "flow" and "parameters". *)
Definition lid_reader : reader :=
  mkReader (fun s => if String.eqb s "0.0" then Some 0 else if String.eqb s "1.0" then Some 1 else if String.eqb s "0.01" then Some (1 / 100) else None)
           (fun s => if String.eqb s "32" then Some 32%Z else if String.eqb s "2001" then Some 2001%Z else None).
Definition lid_lambda (s : string) : option (R -> R -> R -> R -> R -> R) :=
  if String.eqb s "0" then Some (fun _ _ _ _ _ => 0) else if String.eqb s "0.0" then Some (fun _ _ _ _ _ => 0) else None.
Definition lid_axis (d : string) : yaml :=
  YMap [("direction", YScalar d); ("start", YScalar "0.0");
        ("subDomains", YSeq [YMap [("end", YScalar "1.0"); ("cells", YScalar "32"); ("stretchRatio", YScalar "1.0")]])].
Definition lid_bc (loc u : string) : yaml :=
  YMap [("location", YScalar loc); ("u", YSeq [YScalar "DIRICHLET"; YScalar u]); ("v", YSeq [YScalar "DIRICHLET"; YScalar "0.0"])].
Definition lid_solver (name : string) : yaml := YMap [("type", YScalar "CPU"); ("config", YScalar ("config/" ++ name ++ "_solver.info"))].
Definition lid_flow (fl : list (string * yaml)) : list (string * yaml) :=
  [("initialVelocity", YSeq [YScalar "0.0"; YScalar "0.0"]);
   ("boundaryConditions", YSeq [lid_bc "xMinus" "0.0"; lid_bc "xPlus" "0.0"; lid_bc "yMinus" "0.0"; lid_bc "yPlus" "1.0"])] ++ fl.
Definition lid_pars (ps : list (string * yaml)) : list (string * yaml) :=
  [("velocitySolver", lid_solver "velocity"); ("poissonSolver", lid_solver "poisson")] ++ ps.
Definition lid_yaml (fl ps : list (string * yaml)) : yaml :=
  YMap [("directory", YScalar "/run"); ("output", YScalar "/run/output"); ("logs", YScalar "/run/output/logs");
        ("mesh", YSeq [lid_axis "x"; lid_axis "y"]); ("flow", YMap (lid_flow fl)); ("parameters", YMap (lid_pars ps))].
Definition lid_nu : list (string * yaml) := [("nu", YScalar "0.01")].
Definition lid_run : list (string * yaml) :=
  [("dt", YScalar "0.01"); ("nt", YScalar "2001"); ("nsave", YScalar "2001"); ("nrestart", YScalar "2001");
   ("convection", YScalar "EULER_EXPLICIT"); ("diffusion", YScalar "EULER_IMPLICIT")].
Definition lid_axs : list axis := [mkAxis "x" 0 [mkSub 1 32 1]; mkAxis "y" 0 [mkSub 1 32 1]].
Definition lid_bcs : list (Z * Z * bctype * R) :=
  [(0, 0, DIRICHLET, 0%R); (1, 0, DIRICHLET, 0%R); (0, 1, DIRICHLET, 0%R); (1, 1, DIRICHLET, 0%R);
   (0, 2, DIRICHLET, 0%R); (1, 2, DIRICHLET, 0%R); (0, 3, DIRICHLET, 1%R); (1, 3, DIRICHLET, 0%R)]%Z.
(** Two by two processes. *)
Definition lid_np (d : Z) : Z := if (d =? 2)%Z then 1%Z else 2%Z.

Lemma lid_describes fl ps : describes lid_reader (lid_yaml fl ps) lid_axs lid_bcs.
Proof.
  assert (Ha : forall d, describes_axis lid_reader (lid_axis d) (mkAxis d 0 [mkSub 1 32 1])).
  { intros d. unfold describes_axis, word_entry, real_entry. cbn [ax_dir ax_start ax_subs].
    split; [eexists; split; reflexivity|]. split; [do 2 eexists; split; [reflexivity|]; split; reflexivity|].
    do 2 eexists. split; [reflexivity|]. split; [reflexivity|]. repeat constructor; unfold int_entry, real_entry; cbn [sd_cells sd_end sd_ratio];
    repeat split; (do 2 eexists; split; [reflexivity|]; split; [reflexivity|]; auto). }
  assert (Hb : forall lw loc w x, In (lw, loc) doc_locations -> to_real lid_reader w = Some x ->
     describes_boundary lid_reader (lid_bc lw w) [(0%Z, loc, DIRICHLET, x); (1%Z, loc, DIRICHLET, 0)]).
  { intros lw loc w x Hl Hx. exists lw, loc. eexists. split; [reflexivity|]. split; [exact Hl|].
    repeat constructor.
    - exists 0%Z, "u", "DIRICHLET", DIRICHLET, w, x. repeat split; auto; cbn; try tauto; lia.
    - exists 1%Z, "v", "DIRICHLET", DIRICHLET, "0.0", 0. repeat split; auto; cbn; try tauto; lia. }
  unfold describes. do 4 eexists.
  exists [[(0, 0, DIRICHLET, 0%R); (1, 0, DIRICHLET, 0%R)]; [(0, 1, DIRICHLET, 0%R); (1, 1, DIRICHLET, 0%R)];
          [(0, 2, DIRICHLET, 0%R); (1, 2, DIRICHLET, 0%R)]; [(0, 3, DIRICHLET, 1%R); (1, 3, DIRICHLET, 0%R)]]%Z.
  split; [reflexivity|]. split; [reflexivity|]. split; [repeat constructor; apply Ha|].
  split; [reflexivity|]. split; [reflexivity|]. split; [|reflexivity].
  repeat constructor; apply Hb; try reflexivity; cbn; tauto.
Qed.
Lemma lid_bcs_ok : bcs_ok (lenZ lid_axs) lid_bcs.
Proof.
  split; [|split].
  - cbn. repeat constructor; cbn; intuition discriminate.
  - intros f loc. cbn. change (lenZ lid_axs) with 2%Z. split.
    + intros H. repeat (destruct H as [H|H]; [injection H as <- <-; lia|]). destruct H.
    + intros [Hf Hl]. assert (f = 0 \/ f = 1)%Z as [->| ->] by lia;
        assert (loc = 0 \/ loc = 1 \/ loc = 2 \/ loc = 3)%Z as [->|[->|[->| ->]]] by lia; tauto.
  - intros f g d s ty ty' v v' Hs H1 H2.
    assert (X : forall a b c e, In (a, b, c, e) lid_bcs -> c = DIRICHLET).
    { clear. intros a b c e H. unfold lid_bcs in H. cbn [In] in H. repeat (destruct H as [H|H]; [apply (f_equal (fun e => snd (fst e))) in H; cbn in H; congruence|]). destruct H. }
    rewrite (X _ _ _ _ H1), (X _ _ _ _ H2). split; discriminate.
Qed.
Lemma lid_axis_ok : Forall axis_ok lid_axs.
Proof. repeat constructor; cbn; try discriminate; try lra; try lia. Qed.
Lemma lid_np_ok : (forall d, (0 <= d < 3)%Z -> (1 <= lid_np d)%Z) /\ (lenZ lid_axs = 2%Z -> lid_np 2%Z = 1%Z) /\
  (forall d n, axis_cells lid_axs d n -> (lid_np d <= n)%Z /\ ((forall v, ~ In (0%Z, (2 * d)%Z, PERIODIC, v) lid_bcs) -> (lid_np d < n)%Z)).
Proof.
  split; [|split; [reflexivity|]].
  - intros d Hd. unfold lid_np. destruct (d =? 2)%Z; lia.
  - intros d n (ax & Hin & Hw & ->). destruct Hin as [<-|[<-|[]]]; cbn in Hw;
      repeat (destruct Hw as [Hw|Hw]; [try discriminate; injection Hw as <-; cbn; split; lia|]); destruct Hw.
Qed.

(** As shipped, without "nu": the program stops. *)
Example api_shipped_configuration : forall sr d,
  without_nu (lid_yaml [] []) /\ api_program lid_reader lid_lambda false (fun _ => true) lid_np sr (Some (lid_yaml [] [])) d = Err PETSC_ERR_USER_INPUT.
Proof.
  intros sr d. assert (W : without_nu (lid_yaml [] [])) by (do 2 eexists; split; [reflexivity|]; split; reflexivity). split; [exact W|].
  eapply api_example_configuration_refuted; [apply lid_describes|left; reflexivity|apply Permutation_refl|apply lid_axis_ok|apply lid_bcs_ok|apply lid_np_ok|apply lid_np_ok|apply lid_np_ok| |exact W].
  eexists; split; reflexivity.
Qed.

Lemma lid_solvers ps name : In name ["velocity"; "poisson"] ->
  describes_solver false (fun _ => true) (lid_pars ps) "/run" name (KSP name ("/run/config/" ++ name ++ "_solver.info")).
Proof.
  intros [<-|[<-|[]]]; (do 2 eexists; split; [reflexivity|]; split; [right; eexists; split; reflexivity|]; eexists; split;
    [right; right; eexists; split; [eexists; split; reflexivity|]; split; [discriminate|]; split; reflexivity|left; split; [reflexivity|]; split; [reflexivity|]; right; reflexivity]).
Qed.
Lemma lid_documented : documented lid_reader lid_lambda false (fun _ => true) lid_np (lid_yaml lid_nu lid_run) lid_axs lid_bcs (1/100)
  [(fun _ _ _ _ _ => 0); (fun _ _ _ _ _ => 0)] (fun _ _ _ _ _ => 0)
  (mkRC (1/100) 0 0 2001 2001 2001 1 "EULER_EXPLICIT" "EULER_IMPLICIT" (KSP "velocity" "/run/config/velocity_solver.info") (KSP "poisson" "/run/config/poisson_solver.info") "/run/output" "/run/output/logs")
  [1] 1 [].
Proof.
  constructor; [reflexivity|apply lid_describes|left; reflexivity|apply Permutation_refl|apply lid_axis_ok|apply lid_bcs_ok|apply lid_np_ok| |cbn; lia| |cbn; tauto|cbn; tauto|].
  - do 2 eexists. exists ["0.0"; "0.0"]. split; [reflexivity|]. split; [reflexivity|]. split; [do 2 eexists; split; [reflexivity|]; split; reflexivity|]. split; [reflexivity|].
    split; [repeat constructor|]. right. split; reflexivity.
  - do 2 eexists. exists "/run". split; [reflexivity|]. split; [reflexivity|]. split; [eexists; split; reflexivity|]. split; [eexists; split; reflexivity|]. split; [eexists; split; reflexivity|].
    split; [do 2 eexists; split; [reflexivity|]; split; reflexivity|]. split; [left; split; reflexivity|]. split; [left; split; reflexivity|].
    split; [do 2 eexists; split; [reflexivity|]; split; reflexivity|]. split; [do 2 eexists; split; [reflexivity|]; split; reflexivity|]. split; [do 2 eexists; split; [reflexivity|]; split; reflexivity|].
    split; [left; split; reflexivity|]. split; [eexists; split; reflexivity|]. split; [eexists; split; reflexivity|].
    split; apply lid_solvers; cbn; tauto.
  - exists []. eexists. split; [reflexivity|]. left. split; reflexivity.
Qed.
(** With "nu" and the entries of petibm-navierstokes added. *)
Example api_agrees_case : exists axs bcs vel pe c,
  documented lid_reader lid_lambda false (fun _ => true) lid_np (lid_yaml lid_nu lid_run) axs bcs (1/100) vel pe c [1] 1 [] /\
  rc_dt c = 1/100 /\ rc_t c = 0 /\ rc_start c = 0%Z /\ rc_nt c = 2001%Z /\ rc_bn c = 1%Z /\ (exists name file, rc_poisson c = KSP name file) /\
  rc_nsave c <> 0%Z /\ rc_nrestart c <> 0%Z.
Proof.
  do 5 eexists. split; [exact lid_documented|]. repeat (split; [reflexivity|]). split; [do 2 eexists; reflexivity|]. split; discriminate.
Qed.

(** With a Poisson solver that changes the pressure in every step the file does
    not hold the fields after 2000 steps. *)
Example api_last_step_case : forall d, exists m D ops s0 s a d2 F,
  let sr := fun (_ : linsolver) (_ _ : vec) (_ : Z) => 1 in
  api_program lid_reader lid_lambda false (fun _ => true) lid_np sr (Some (lid_yaml lid_nu [])) d = Ok (m, D, a, d2) /\ d2 "/run/output/0002000.h5" = Some F /\
  ns_steps m D (mkPar (1/100) (1/100) 1 [1] 1 [] false) ops (convection m D) (fun _ _ _ => 1) (fun _ _ _ => 1) 2000 s0 = Ok s /\ ~ holds_pressure m D (s_p s) F.
Proof.
  intros d. set (sr := fun (_ : linsolver) (_ _ : vec) (_ : Z) => 1).
  assert (Hd : api_documented lid_reader lid_lambda false (fun _ => true) lid_np (lid_yaml lid_nu []) lid_axs lid_bcs (1/100)
    [(fun _ _ _ _ _ => 0); (fun _ _ _ _ _ => 0)] (fun _ _ _ _ _ => 0) "/run/output" (KSP "velocity" "/run/config/velocity_solver.info") (KSP "poisson" "/run/config/poisson_solver.info")).
  { constructor; [reflexivity|apply lid_describes|left; reflexivity|apply Permutation_refl|apply lid_axis_ok|apply lid_bcs_ok|apply lid_np_ok| |cbn; lia|].
    - do 2 eexists. exists ["0.0"; "0.0"]. split; [reflexivity|]. split; [reflexivity|]. split; [do 2 eexists; split; [reflexivity|]; split; reflexivity|]. split; [reflexivity|].
      split; [repeat constructor|]. right. split; reflexivity.
    - do 2 eexists. exists "/run". split; [reflexivity|]. split; [reflexivity|]. split; [eexists; split; reflexivity|]. split; [eexists; split; reflexivity|].
      split; apply lid_solvers; cbn; tauto. }
  destruct (api_file_after_2000_steps_refuted _ _ _ _ _ _ _ _ _ _ _ _ _ _ sr d Hd) as (m & D & ops & s0 & s & s' & a & d2 & F & A1 & A2 & A3 & A4 & _ & A6).
  destruct (api_example_runs _ _ _ _ _ _ _ _ _ _ _ _ _ _ sr d Hd) as (m' & D' & _ & _ & _ & _ & _ & _ & _ & a' & d2' & Hs & _ & _ & _ & _ & _ & _ & _ & _ & _ & E' & _).
  rewrite A1 in E'. injection E' as <- <- _ _.
  exists m, D, ops, s0, s, a, d2, F. split; [exact A1|]. split; [exact A2|]. split; [exact A3|]. apply A6.
  pose proof (UniqueProof.np_pos m D Hs) as Hn. destruct (AdjProof.pressure_ids m D 0 (setup_facts _ _ Hs) ltac:(lia)) as (p & Ep).
  exists 0%Z, p. split; [exact Ep|]. unfold advance, advance_with in A4. apply bind_ok_inv in A4. destruct A4 as ((r & s1) & E1 & A4). apply bind_ok_inv in A4. destruct A4 as (r2 & _ & A4).
    apply bind_ok_inv in A4. destruct A4 as (B2 & _ & A4). injection A4 as <-. cbn [s_p]. unfold vaxpy, sr.
    assert (E : s_p s1 = s_p s). { unfold assembleRHSVelocity, rhs_velocity in E1. repeat (let x := fresh in apply bind_ok_inv in E1; destruct E1 as (x & _ & E1)). injection E1 as _ <-. reflexivity. }
    rewrite E. lra.
Qed.
