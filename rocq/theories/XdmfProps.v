(** C68: the visualisation files describe the grid and the data. *)
From Coq Require Import Ascii String Permutation ZifyBool.
From Verif Require Import Prelude ZSum RSum TypesModel GridModel GridSpec GridProof MeshProof
  IndexModel IndexSpec IndexProof BoundaryModel BoundarySpec BoundaryProof OperatorModel OperatorSpec MatModel NSModel NSSpec NSProof NameModel NameSpec NameProof
  NameProps DriverModel DriverSpec DriverProof DriveProof RestartProof RunProof VortModel VortSpec VortProof GridFile VortFile VortProps ConvModel ConvSpec
  ConfigModel ConfigSpec ConfigProof ConfigSetup ConfigInit ConfigUse ConfigProps ProgModel ProgSpec ProgProof ProgRun ProgProps XdmfModel XdmfSpec XdmfProof ExampleSetup.
Local Open Scope R_scope.

(** Writing the grid file succeeds for every mesh; the file has, for the three
    velocity components, the pressure and the vertices, the coordinates of the
    points along the three axes, and nothing else; no other file changes. *)
Theorem grid_file_written : forall m D path d, mesh_setup m D ->
  exists ops G, mesh_write m path = Ok ops /\ run_ops ops d path = Some G /\ (forall p, p <> path -> run_ops ops d p = d p) /\
    (forall f, (0 <= f < 5)%Z -> holds_coords (fd2str f) (m_n m f) (crd m f) G) /\
    (forall nm, (forall f e, (0 <= f < 5)%Z -> (0 <= e < 3)%Z -> nm <> ("/" ++ fd2str f ++ "/" ++ axis_name e)%string) -> f_sets G nm = None).
Proof.
  intros m D path d Hset. destruct (mesh_file m D path d Hset) as (ops & G & A & B & C & N). exists ops, G. split; [exact A|]. split; [exact B|]. split; [|split; [exact C|exact N]].
  intros p Hp. apply run_other. intros o Ho E. apply Hp. rewrite <- E. exact (mesh_write_paths _ _ _ _ A Ho).
Qed.
Print Assumptions grid_file_written.

(** After a run of the solver, the XDMF files made with the same range of steps
    (the default) list every saved step of the run once, in order, and each
    entry displays the state after that many steps: at every point of the field
    its coordinates and its value; nothing else. *)
Theorem solution_displayed : forall m D P types values t0 U0 p0 conv vs ps conf mon fuel d s2 d2 tr ops s1 fuel' f,
  mesh_setup m D -> started conf m D P types values t0 U0 p0 d ops s1 ->
  ns_main fuel conf m D P types values t0 U0 p0 mon conv vs ps d = Ok (Some (s2, d2, tr)) ->
  probes_elsewhere (c_out conf) mon -> probes_off_grid (c_out conf) mon ->
  (0 <= c_nstart conf)%Z -> (0 < c_nsave conf)%Z -> c_nrestart conf <> 0%Z -> (c_nsave conf | c_nstart conf)%Z -> (c_nt conf < Z.of_nat fuel')%Z ->
  (0 <= f < m_dim m \/ f = 3)%Z ->
  exists docs gs, xdmf_main fuel' m (c_out conf) (c_nstart conf) (c_nstart conf + c_nt conf) (c_nsave conf) = Some docs /\
    In ((c_out conf ++ "/" ++ fd2str f ++ ".xmf")%string, gs) docs /\ lists_steps gs (c_nstart conf) (c_nstart conf + c_nt conf) (c_nsave conf) /\
    forall g, In g gs -> exists st, ns_steps m D P ops conv vs ps (Z.to_nat (xg_time g - c_nstart conf)) s1 = Ok st /\
      displays d2 g (m_dim m) (m_n m f) (crd m f) (field_value m D f st).
Proof.
  intros m D P types values t0 U0 p0 conv vs ps conf mon fuel d s2 d2 tr ops s1 fuel' f Hset Hst Hm Hpr Hpg H0 Hsv Hrs Hd Hfu Hf.
  destruct (doc_of fuel' m (c_out conf) (c_nstart conf) (c_nstart conf + c_nt conf) (c_nsave conf) (fd2str f) (m_n m f) Hsv Hd ltac:(lia) (field_listed m D f Hset Hf))
    as (docs & gs & E & Hin & Hl & Hg). exists docs, gs. split; [exact E|]. split; [exact Hin|]. split; [exact Hl|]. intros g Hgg.
  destruct (Hg g Hgg) as (Eg & Ht & Hdt).
  destruct (run_entry m D P types values t0 U0 p0 conv vs ps conf mon fuel d s2 d2 tr ops s1 (xg_time g) Hset Hst Hm Hpr H0 Hsv Hrs Ht Hdt) as (st & F & Est & EF & HV & HP).
  exists st. split; [exact Est|]. rewrite Eg.
  destruct (run_grid m D P types values t0 U0 p0 conv vs ps conf mon fuel d s2 d2 tr Hset Hm Hpg H0) as (wo & Ew & EG).
  destruct (mesh_file m D (grid_path (c_out conf)) d Hset) as (wo' & G & Ew' & EG' & HC & _). assert (wo' = wo) by congruence. subst wo'.
  eapply (show_field m D st F G); eauto; [lia|congruence|]. apply HC. pose proof (mf_dim _ _ (setup_facts _ _ Hset)). lia.
Qed.
Print Assumptions solution_displayed.

(** The solver, then the vorticity utility (on any process grid), then the
    XDMF utility, with the same range of steps: the vorticity utility succeeds;
    the velocity and the pressure are displayed as before; every component of
    the vorticity is displayed, at cell centres along its direction and at
    vertices along the others; inside the domain the z component is the
    circulation of the computed velocity around the vertex, per unit area. *)
Theorem pipeline_displayed : forall m D P types values t0 U0 p0 conv vs ps conf mon fuel d s2 d2 tr ops s1 D' fuel1 fuel',
  mesh_setup m D -> started conf m D P types values t0 U0 p0 d ops s1 ->
  ns_main fuel conf m D P types values t0 U0 p0 mon conv vs ps d = Ok (Some (s2, d2, tr)) ->
  probes_elsewhere (c_out conf) mon -> probes_off_grid (c_out conf) mon ->
  (0 <= c_nstart conf)%Z -> (0 < c_nsave conf)%Z -> c_nrestart conf <> 0%Z -> (c_nsave conf | c_nstart conf)%Z ->
  (c_nt conf < Z.of_nat fuel1)%Z -> (c_nt conf < Z.of_nat fuel')%Z -> mesh_setup m D' -> bc_fits m types ->
  let bg := c_nstart conf in let ed := (c_nstart conf + c_nt conf)%Z in let step := c_nsave conf in let out := c_out conf in
  exists d3 docs, vort_main fuel1 m D' types values out bg ed step d2 = Ok (Some d3) /\
    xdmf_main fuel' m out bg ed step = Some docs /\
    (forall f, (0 <= f < m_dim m \/ f = 3)%Z -> exists gs, In ((out ++ "/" ++ fd2str f ++ ".xmf")%string, gs) docs /\ lists_steps gs bg ed step /\
       forall g, In g gs -> exists st, ns_steps m D P ops conv vs ps (Z.to_nat (xg_time g - bg)) s1 = Ok st /\
         displays d3 g (m_dim m) (m_n m f) (crd m f) (field_value m D f st)) /\
    (forall a, component m a -> exists gs, In ((out ++ "/" ++ vort_group a ++ ".xmf")%string, gs) docs /\ lists_steps gs bg ed step /\
       forall g, In g gs -> exists st, ns_steps m D P ops conv vs ps (Z.to_nat (xg_time g - bg)) s1 = Ok st /\
         displays d3 g (m_dim m) (vort_sizes m a) (vort_crd m a)
           (fun p v => a = 2%Z -> inner_vertex m 2 p -> forall u, velocity_of m D st u -> v = curl m u 2 p)).
Proof.
  intros m D P types values t0 U0 p0 conv vs ps conf mon fuel d s2 d2 tr ops s1 D' fuel1 fuel' Hset Hst Hm Hpr Hpg H0 Hsv Hrs Hd Hfu1 Hfu Hset' Hb bg ed step out.
  assert (HE : forall t, (bg <= t <= ed)%Z -> (step | t)%Z -> exists st F, ns_steps m D P ops conv vs ps (Z.to_nat (t - bg)) s1 = Ok st /\ d2 (solution_path out t) = Some F /\
    holds_velocity m D (s_U st) F /\ holds_pressure m D (s_p st) F)
    by (intros t Ht Hdt; exact (run_entry m D P types values t0 U0 p0 conv vs ps conf mon fuel d s2 d2 tr ops s1 t Hset Hst Hm Hpr H0 Hsv Hrs Ht Hdt)).
  assert (HM : forall k, (step | bg + k * step)%Z) by (intros k; apply Z.divide_add_r; [exact Hd|apply Z.divide_factor_r]).
  assert (Hrd : forall k, (0 <= k)%Z -> (bg + k * step <= ed)%Z -> exists F, d2 (solution_path out (bg + k * step)) = Some F /\ readable m F).
  { intros k Hk Hle. destruct (HE (bg + k * step)%Z ltac:(unfold step in *; nia) (HM k)) as (st & F & _ & EF & HV & HP). exists F. split; [exact EF|]. exact (holds_readable m D _ _ F Hset HV HP). }
  destruct (vorticity_run m D' types values out fuel1 bg ed step d2 Hset' Hb H0 Hsv ltac:(unfold bg, ed; lia) Hrd) as (d3 & Ev & V1 & V2 & G3 & EG3 & VG1 & VG2).
  destruct (run_grid m D P types values t0 U0 p0 conv vs ps conf mon fuel d s2 d2 tr Hset Hm Hpg H0) as (wo & Ew & EG).
  destruct (mesh_file m D (grid_path (c_out conf)) d Hset) as (wo' & G & Ew' & EG' & HC & _). assert (wo' = wo) by congruence. subst wo'.
  assert (EG2 : d2 (grid_path out) = Some G) by (unfold out in *; congruence).
  assert (HC3 : forall f, (0 <= f < 5)%Z -> holds_coords (fd2str f) (m_n m f) (crd m f) G3).
  { intros f Hf e He. destruct (HC f Hf e He) as (l & A & B). exists l. split; [|exact B]. rewrite (VG2 G _ EG2); [exact A|]. intros a e' Ha He'.
    destruct (z5 f Hf) as [->|[->|[->|[->| ->]]]]; unfold vort_group; cbn [fd2str Z.eqb Pos.eqb]; repeat (match goal with |- context [if ?b then _ else _] => destruct b end);
      cbn [String.append]; discriminate. }
  assert (HE3 : forall t, (bg <= t <= ed)%Z -> (step | t)%Z -> exists st F F3, ns_steps m D P ops conv vs ps (Z.to_nat (t - bg)) s1 = Ok st /\
    d2 (solution_path out t) = Some F /\ holds_velocity m D (s_U st) F /\ d3 (solution_path out t) = Some F3 /\
    holds_velocity m D (s_U st) F3 /\ holds_pressure m D (s_p st) F3 /\
    (forall a, component m a -> holds_vorticity m a (fun _ _ => True) F3) /\
    holds_vorticity m 2 (fun p v => forall u, stored_velocity m F u -> inner_vertex m 2 p -> v = curl m u 2 p) F3).
  { intros t Ht Hdt. destruct (HE t Ht Hdt) as (st & F & Est & EF & HV & HP).
    assert (exists k, (0 <= k)%Z /\ t = (bg + k * step)%Z) as (k & Hk & ->).
    { assert (X : (step | t - bg)%Z) by now apply Z.divide_sub_r. destruct X as [k Hk]. exists k. unfold step in *. split; [nia|lia]. }
    destruct (V1 k F Hk ltac:(lia) EF) as (F3 & EF3 & Ho & Hv3). exists st, F, F3. split; [exact Est|]. split; [exact EF|]. split; [exact HV|]. split; [exact EF3|].
    destruct (only_velocity m D _ _ F F3 Hset Ho HV HP) as [X1 X2]. split; [exact X1|]. split; [exact X2|]. split; [exact Hv3|].
    exact (vorticity_z m D' types values out fuel1 bg ed step d2 k F d3 F3 Hset' Hb H0 Hsv ltac:(unfold bg, ed; lia) Hrd Ev Hk ltac:(lia) EF EF3). }
  assert (EX : exists docs, xdmf_main fuel' m out bg ed step = Some docs).
  { destruct (doc_of fuel' m out bg ed step _ _ Hsv Hd ltac:(unfold bg, ed; lia) (field_listed m D 3 Hset (or_intror eq_refl))) as (docs & _ & X & _). eauto. }
  destruct EX as (docs & Ex). exists d3, docs. split; [exact Ev|]. split; [exact Ex|]. split.
  - intros f Hf. destruct (doc_of fuel' m out bg ed step _ _ Hsv Hd ltac:(unfold bg, ed; lia) (field_listed m D f Hset Hf)) as (docs' & gs & E & Hin & Hl & Hg).
    assert (docs' = docs) by congruence. subst docs'. exists gs. split; [exact Hin|]. split; [exact Hl|]. intros g Hgg. destruct (Hg g Hgg) as (Eg & Ht & Hdt).
    destruct (HE3 _ Ht Hdt) as (st & F & F3 & Est & _ & _ & EF3 & HV & HP & _). exists st. split; [exact Est|]. rewrite Eg.
    eapply (show_field m D st F3 G3); eauto; [unfold bg in *; lia|]. apply HC3. pose proof (mf_dim _ _ (setup_facts _ _ Hset)). lia.
  - intros a Ha. destruct (doc_of fuel' m out bg ed step _ _ Hsv Hd ltac:(unfold bg, ed; lia) (vort_listed m D a Hset Ha)) as (docs' & gs & E & Hin & Hl & Hg).
    assert (docs' = docs) by congruence. subst docs'. exists gs. split; [exact Hin|]. split; [exact Hl|]. intros g Hgg. destruct (Hg g Hgg) as (Eg & Ht & Hdt).
    destruct (HE3 _ Ht Hdt) as (st & F & F3 & Est & _ & HV0 & EF3 & _ & _ & Hw & Hz). exists st. split; [exact Est|]. rewrite Eg.
    eapply (show_vorticity m D F3 G3); eauto; [unfold bg in *; lia|]. destruct (Z.eq_dec a 2) as [->|Ha2].
    + eapply holds_weaken; [|exact Hz]. cbv beta. intros p v Hp Hv _ Hin2 u Hu. apply Hv; [|exact Hin2]. intros f q Hf Hq Hi. exact (in_file_value m D st F f _ _ Hset Hf HV0 (Hu f q Hf Hq Hi)).
    + eapply holds_weaken; [|exact (Hw a Ha)]. cbv beta. intros p v _ _ E2. contradiction.
Qed.
Print Assumptions pipeline_displayed.

(** A run of the solver discards the coordinates of the vorticity points from the
    grid file: after it, and until the vorticity utility is run again, no entry
    of an XDMF file of the vorticity displays anything, not even the steps of an
    earlier run whose vorticity was computed and is still in their files. *)
Theorem vorticity_lost_refuted : forall m D P types values t0 U0 p0 conv vs ps conf mon fuel d s2 d2 tr fuel' bg ed step docs a gs g p,
  mesh_setup m D ->
  ns_main fuel conf m D P types values t0 U0 p0 mon conv vs ps d = Ok (Some (s2, d2, tr)) ->
  probes_off_grid (c_out conf) mon -> (0 <= c_nstart conf)%Z -> (0 < step)%Z ->
  xdmf_main fuel' m (c_out conf) bg ed step = Some docs -> component m a ->
  In ((c_out conf ++ "/" ++ vort_group a ++ ".xmf")%string, gs) docs -> In g gs -> displayed d2 g p = None.
Proof.
  intros m D P types values t0 U0 p0 conv vs ps conf mon fuel d s2 d2 tr fuel' bg ed step docs a gs g p Hset Hm Hpg H0 Hst Hx Ha Hin Hg.
  destruct (xdmf_In_doc _ _ _ _ _ _ _ _ _ _ Hx Hst Hin Hg) as (n & t & _ & -> & _).
  destruct (run_grid m D P types values t0 U0 p0 conv vs ps conf mon fuel d s2 d2 tr Hset Hm Hpg H0) as (wo & Ew & EG).
  destruct (mesh_file m D (grid_path (c_out conf)) d Hset) as (wo' & G & Ew' & EG' & _ & HN). assert (wo' = wo) by congruence. subst wo'. rewrite EG' in EG.
  pose proof (mf_dim _ _ (setup_facts _ _ Hset)) as Hdim. assert (HX : item_values d2 (HDFItem [n 0%Z] (c_out conf ++ "/grid.h5")%string (coord_name (vort_group a) 0)) = None).
  { cbn [item_values]. change (c_out conf ++ "/grid.h5")%string with (grid_path (c_out conf)). rewrite EG, HN; [reflexivity|]. intros f e Hf He.
    destruct (z5 f Hf) as [->|[->|[->|[->| ->]]]]; unfold coord_name, vort_group; cbn [fd2str Z.eqb Pos.eqb]; repeat (match goal with |- context [if ?b then _ else _] => destruct b end);
      cbn [String.append]; discriminate. }
  destruct p as [[i j] k]. unfold displayed, xdmf_grid. cbn [xg_topology xg_geometry xg_data]. unfold xdmf_geometry.
  rewrite (zrange_cons 0 (m_dim m)) by lia. cbn [map app]. rewrite HX. reflexivity.
Qed.
Print Assumptions vorticity_lost_refuted.

(** * From the configuration file *)

Lemma mesh_same rd np np' y m D m' D' : createMesh rd np y = Ok (Some (m, D)) -> createMesh rd np' y = Ok (Some (m', D')) -> m' = m.
Proof.
  assert (I : forall np m D, createMesh rd np y = Ok (Some (m, D)) -> mesh_init rd np y = Ok (m, D)).
  { intros n a b. unfold createMesh, ctor. destruct (mesh_init rd n y) as [x|c|]; [congruence| |discriminate]. destruct (c =? EXC)%Z; discriminate. }
  intros H H'. apply I in H, H'. unfold mesh_init in *. apply bind_ok_inv in H, H'. destruct H as (a & E1 & H), H' as (a' & E1' & H'). assert (a' = a) by congruence. subst a'.
  apply bind_ok_inv in H, H'. destruct H as ([dim g] & E2 & H), H' as ([dim' g'] & E2' & H'). rewrite E2 in E2'. injection E2' as <- <-.
  apply bind_ok_inv in H, H'. destruct H as (t & E3 & H), H' as (t' & E3' & H'). assert (t' = t) by congruence. subst t'.
  apply bind_ok_inv in H, H'. destruct H as (per & E4 & H), H' as (per' & E4' & H'). assert (per' = per) by congruence. subst per'.
  apply bind_ok_inv in H, H'. destruct H as (mm & E5 & H), H' as (mm' & E5' & H'). assert (mm' = mm) by congruence. subst mm'.
  destruct ((dim =? 2) || (dim =? 3))%Z; [|discriminate]. apply bind_ok_inv in H, H'. destruct H as (DD & _ & H), H' as (DD' & _ & H'). injection H as <- _. injection H' as <- _. reflexivity.
Qed.

Definition given {A} (o : option A) (x : A) : A := match o with Some y => y | None => x end.

(** The utilities work on the mesh of the solver and on the output directory of
    the configuration, whatever the process grid; the options -bg, -ed, -step
    replace the start step, the last step and the saving frequency. *)
Theorem utilities_use_configuration : forall rd lambdify amgx load np npv npx y axs bcs nu vel pe c wc wi wd m D,
  documented rd lambdify amgx load np y axs bcs nu vel pe c wc wi wd ->
  documented rd lambdify amgx load npv y axs bcs nu vel pe c wc wi wd ->
  documented rd lambdify amgx load npx y axs bcs nu vel pe c wc wi wd ->
  createMesh rd np (Some y) = Ok (Some (m, D)) ->
  exists D' types values, mesh_setup m D' /\ (forall d, ds_np D' d = npv d) /\ parseBCs rd (Some y) = Ok (types, values) /\ bc_fits m types /\
    forall obg oed ostep, let bg := given obg (rc_start c) in let ed := given oed (bg + rc_nt c)%Z in let step := given ostep (rc_nsave c) in
      (forall fuel d, vort_program rd npv fuel obg oed ostep (Some y) d = vort_main fuel m D' types values (rc_out c) bg ed step d) /\
      (forall fuel, xdmf_program rd npx fuel obg oed ostep (Some y) = Ok (xdmf_main fuel m (rc_out c) bg ed step)) /\
      (forall ofile d, exists ops, mesh_write m (given ofile (rc_out c ++ "/grid.h5")%string) = Ok ops /\
         writemesh_program rd npx ofile (Some y) d = Ok (run_ops ops d)).
Proof.
  intros rd lam amgx load np npv npx y axs bcs nu vel pe c wc wi wd m D Hd Hdv Hdx Em.
  destruct Hdv as [_ Hm H1 H2 H3 H4 (H5 & H6 & H7) _ _ Hr _ _ _].
  destruct (configuration_builds_simulation rd y axs bcs npv Hm H1 H2 H3 H4 H5 H6 H7) as (mv & Dv & types & values & Emv & Eb & Hs & Hf & _ & Np & _ & _ & Bd).
  pose proof (mesh_same _ _ _ _ _ _ _ _ Em Emv) as ->.
  destruct Hdx as [_ _ _ _ _ _ (X5 & X6 & X7) _ _ _ _ _ _].
  destruct (configuration_builds_simulation rd y axs bcs npx Hm H1 H2 H3 H4 X5 X6 X7) as (mx & Dx & tx & vx & Emx & _). pose proof (mesh_same _ _ _ _ _ _ _ _ Em Emx) as ->.
  exists Dv, types, values. split; [exact Hs|]. split; [exact Np|]. split; [exact Eb|]. split; [exact Hf|]. intros obg oed ostep bg ed step.
  destruct Hr as (st & ps & dir & -> & Eps & Edir & Eout & Elogs & Edt & Et & Ess & Ent & Ens & _).
  assert (ER : step_range rd obg oed ostep (Some (YMap st)) = Ok (bg, ed, step)).
  { unfold step_range, bg, ed, step. cbn [yget_mut yget bind]. rewrite Eps. cbn [yget_mut yget bind]. rewrite (int_or_read _ _ _ _ _ Ess), (int_read _ _ _ _ Ent), (int_read _ _ _ _ Ens).
    destruct obg, oed, ostep; reflexivity. }
  split; [|split].
  - intros fuel d. unfold vort_program. rewrite Emv. cbn [used bind].
    destruct (NSTotal.mapM_total (fun r => used (createBoundary_factory rd m Dv r (Some (YMap st)))) (zrange 0 (nranks Dv))) as (l & El).
    { intros r Hr. apply zrange_In in Hr. destruct (Bd r Hr) as (b & Eb' & _). exists b. rewrite Eb'. reflexivity. }
    rewrite El. cbn [bind]. rewrite Eb. cbn [bind yget_mut yget]. rewrite (word_read _ _ _ Eout). cbn [as_string bind]. rewrite ER. reflexivity.
  - intros fuel. unfold xdmf_program. rewrite Emx. cbn [used bind]. rewrite ER. cbn [bind yget_mut yget]. rewrite (word_read _ _ _ Eout). reflexivity.
  - intros ofile d. destruct (mesh_file m Dv (given ofile (rc_out c ++ "/grid.h5")%string) d Hs) as (ops & _ & Ew & _). exists ops. split; [exact Ew|].
    unfold writemesh_program. rewrite Emx. cbn [used bind yget_mut yget]. rewrite (word_read _ _ _ Eout). cbn [as_string bind]. unfold given in Ew. destruct ofile; rewrite Ew; reflexivity.
Qed.
Print Assumptions utilities_use_configuration.

(** The three programs on one configuration file, each on its own process grid,
    without options: if the solver ends, the vorticity utility and the XDMF
    utility succeed and what is displayed is the simulation that was run. *)
Theorem program_pipeline : forall rd lambdify amgx load np npv npx y axs bcs nu vel pe c wc wi wd solver_result probe_ops fuel d s2 d2 tr,
  documented rd lambdify amgx load np y axs bcs nu vel pe c wc wi wd ->
  documented rd lambdify amgx load npv y axs bcs nu vel pe c wc wi wd ->
  documented rd lambdify amgx load npx y axs bcs nu vel pe c wc wi wd ->
  ns_program rd lambdify amgx load np solver_result probe_ops fuel (Some y) d = Ok (Some (s2, d2, tr)) ->
  (forall probes, describes_probes rd (lenZ axs) (rc_out c) y probes ->
     probes_elsewhere (rc_out c) (probe_ops probes) /\ probes_off_grid (rc_out c) (probe_ops probes)) ->
  (0 <= rc_start c)%Z -> (0 < rc_nsave c)%Z -> rc_nrestart c <> 0%Z -> (rc_nsave c | rc_start c)%Z ->
  let bg := rc_start c in let ed := (rc_start c + rc_nt c)%Z in let step := rc_nsave c in let out := rc_out c in
  let P := mkPar (rc_dt c) nu (rc_bn c) wc wi wd (match rc_poisson c with AmgX _ _ => true | KSP _ _ => false end) in
  exists m D ops s1, createMesh rd np (Some y) = Ok (Some (m, D)) /\ mesh_setup m D /\ m_dim m = lenZ axs /\
    (forall ax d, In ax axs -> In (ax_dir ax, d) doc_directions -> built_axis m ax d) /\
    (rc_start c = 0%Z -> forall id f i j k, nthZ (packed_layout (m_dim m) D) id = Some (f, (i, j, k)) ->
       exists e, nthZ vel f = Some e /\ s_U s1 id = e (xyz m f 0 i) (xyz m f 1 j) (xyz m f 2 k) 0 nu) /\
    forall fuelv fuelx, (rc_nt c < Z.of_nat fuelv)%Z -> (rc_nt c < Z.of_nat fuelx)%Z ->
    exists d3 docs, vort_program rd npv fuelv None None None (Some y) d2 = Ok (Some d3) /\
      xdmf_program rd npx fuelx None None None (Some y) = Ok (Some docs) /\
      let state t st := ns_steps m D P ops (convection m D) (solver_result (rc_velocity c)) (solver_result (rc_poisson c)) (Z.to_nat (t - bg)) s1 = Ok st in
      (forall f, (0 <= f < m_dim m \/ f = 3)%Z -> exists gs, In ((out ++ "/" ++ fd2str f ++ ".xmf")%string, gs) docs /\ lists_steps gs bg ed step /\
         forall g, In g gs -> exists st, state (xg_time g) st /\ displays d3 g (m_dim m) (m_n m f) (crd m f) (field_value m D f st)) /\
      (forall a, component m a -> exists gs, In ((out ++ "/" ++ vort_group a ++ ".xmf")%string, gs) docs /\ lists_steps gs bg ed step /\
         forall g, In g gs -> exists st, state (xg_time g) st /\
           displays d3 g (m_dim m) (vort_sizes m a) (vort_crd m a)
             (fun p v => a = 2%Z -> inner_vertex m 2 p -> forall u, velocity_of m D st u -> v = curl m u 2 p)).
Proof.
  intros rd lam amgx load np npv npx y axs bcs nu vel pe c wc wi wd sr po fuel d s2 d2 tr Hd Hdv Hdx Hrun Hpr H0 Hsv Hrs Hdiv bg ed step out P.
  destruct (program_lemma _ _ _ _ _ _ _ _ _ _ _ _ _ _ _ Hd) as (m & D & types & values & U0 & p0 & probes & (Em & Eb & _) & Hs & Hb & Md & _ & Ax & _ & HU & _ & Hp & E).
  rewrite E in Hrun. clear E. destruct (Hpr probes Hp) as [Hpe Hpg]. set (conf := mkConf _ _ _ _ _ _) in Hrun. fold P in Hrun.
  destruct (main_inv _ _ _ _ _ _ _ _ _ _ _ _ _ _ _ _ _ _ Hrun) as (ops & s0 & s1 & w & tr' & EI & EIO & _).
  assert (Hst : started conf m D P types values (rc_t c) U0 p0 d ops s1) by (exists s0, w; auto).
  exists m, D, ops, s1. split; [exact Em|]. split; [exact Hs|]. split; [exact Md|]. split; [exact Ax|]. split.
  - intros E0. assert (Eu : s_U s1 = U0).
    { apply (NSProof.ns_init_inv _ _ _ _ _ _ _ _ _ _ _ (setup_facts _ _ Hs) Hb) in EI. destruct EI as (B & _ & _ & ->).
      unfold io_initial in EIO. cbn [s_ite] in EIO. change (c_nstart conf) with (rc_start c) in EIO. rewrite E0 in EIO. cbn in EIO. injection EIO as <- _. reflexivity. }
    rewrite Eu. exact HU.
  - intros fuelv fuelx Hfv Hfx.
    destruct (utilities_use_configuration _ _ _ _ np npv npx y _ _ _ _ _ c _ _ _ m D Hd Hdv Hdx Em) as (D' & types' & values' & Hs' & _ & Eb' & _ & HX).
    assert (types' = types /\ values' = values) as [-> ->] by (split; congruence).
    destruct (HX None None None) as (Xv & Xx & _). cbn [given] in Xv, Xx. rewrite Xv, Xx.
    destruct (pipeline_displayed m D P types values (rc_t c) U0 p0 (convection m D) _ _ conf (po probes) fuel d s2 d2 tr ops s1 D' fuelv fuelx
      Hs Hst Hrun Hpe Hpg H0 Hsv Hrs Hdiv Hfv Hfx Hs' Hb) as (d3 & docs & Ev & Ex & A & B).
    exists d3, docs. split; [exact Ev|]. split; [|split; [exact A|exact B]]. f_equal. exact Ex.
Qed.
Print Assumptions program_pipeline.

(** A case: the configuration of [program_case], run on one process grid; the
    utilities on the same one. *)
Example pipeline_case : let y := px_yaml "NEUMANN" "0" "3" in let np := ConfigProps.ex_np in
  exists s2 d2 tr d3 docs gs g, ns_program ex_reader ex_lambda false (fun _ => true) np (fun _ _ b => b) (fun _ _ => []) 6 (Some y) (fun _ => None) = Ok (Some (s2, d2, tr)) /\
    vort_program ex_reader np 6 None None None (Some y) d2 = Ok (Some d3) /\
    xdmf_program ex_reader np 6 None None None (Some y) = Ok (Some docs) /\ In ("/run/output/wz.xmf"%string, gs) docs /\ In g gs /\
    displayed d2 g (1, 1, 0)%Z = None /\ exists x yy z v, displayed d3 g (1, 1, 0)%Z = Some (x, yy, z, v).
Proof.
  intros y np. set (sr := fun (_ : linsolver) (_ b : vec) => b). set (po := fun (_ : list pdesc) (_ : nsstate) => @nil fsop). set (d0 := fun _ : string => @None file).
  pose proof (program_case "NEUMANN" NEUMANN "0" "3" 0 3 ltac:(cbn; tauto) ltac:(discriminate) eq_refl eq_refl) as Hd.
  destruct (program_completes _ _ _ _ _ _ _ _ _ _ _ _ _ _ _ sr po 6 d0 Hd eq_refl ltac:(discriminate) ltac:(discriminate) ltac:(cbn; lia) ltac:(cbn; lia)) as (s2 & d2 & tr & E & _).
  destruct (program_pipeline _ _ _ _ np np np y _ _ _ _ _ (px_conf 0 3) _ _ _ sr po 6 d0 s2 d2 tr Hd Hd Hd E) as (m & D & ops & s1 & Em & Hs & Md & _ & _ & HX);
    [intros probes _; split; [intros s o n []|intros s o []]|cbn; lia|cbn; lia|discriminate|apply Z.divide_0_r|].
  destruct (HX 6%nat 6%nat ltac:(cbn; lia) ltac:(cbn; lia)) as (d3 & docs & Ev & Ex & _ & HV). change (m_dim m = 2%Z) in Md.
  destruct (HV 2%Z) as (gs & Hin & (Hl & _) & Hg); [unfold component; rewrite Md; reflexivity|].
  assert (In 0%Z (map xg_time gs)) as Hg0 by (apply Hl; split; [cbn; lia|apply Z.divide_0_r]). apply in_map_iff in Hg0. destruct Hg0 as (g & Eg & Hgg).
  destruct (Hg g Hgg) as (st & _ & Hdis). exists s2, d2, tr, d3, docs, gs, g. split; [exact E|]. split; [exact Ev|]. split; [exact Ex|]. split; [exact Hin|]. split; [exact Hgg|]. split.
  - destruct (program_lemma _ _ _ _ _ _ _ _ _ _ _ _ _ _ _ Hd) as (m' & D' & types & values & U0 & p0 & probes & (Em' & _) & _ & _ & _ & _ & _ & _ & _ & _ & _ & E').
    pose proof (eq_trans (eq_sym Em') Em) as X. injection X as -> ->. rewrite E' in E.
    destruct (utilities_use_configuration _ _ _ _ np np np y _ _ _ _ _ (px_conf 0 3) _ _ _ m D Hd Hd Hd Em) as (Dv & ty & va & _ & _ & _ & _ & HY). destruct (HY None None None) as (_ & Xx & _).
    rewrite Xx in Ex. injection Ex as Ex.
    eapply (vorticity_lost_refuted m D _ _ _ _ _ _ _ _ _ _ _ _ _ s2 d2 tr 6 _ _ _ docs 2 gs g); [exact Hs|exact E|intros s o []|cbn; lia| |exact Ex| |exact Hin|exact Hgg]; [cbn; lia|].
    unfold component. rewrite Md. reflexivity.
  - destruct (Hdis 1%Z 1%Z 0%Z) as [Hd1 _]. destruct (mf_sizes _ _ (setup_facts _ _ Hs) 3 (or_intror eq_refl)) as (_ & A & B & C & _).
    destruct Hd1 as (v & Ed & _); [unfold vort_sizes; cbn [Z.eqb Pos.eqb]; lia|]. rewrite Ed. eauto 6.
Qed.
