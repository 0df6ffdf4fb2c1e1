(** The program on a documented configuration: the objects of init. *)
From Coq Require Import Ascii String Permutation ZifyBool.
From Verif Require Import Prelude ZSum RSum TypesModel GridModel GridSpec GridProof IndexModel IndexSpec BoundaryModel BoundarySpec BoundaryProof
  OperatorModel OperatorSpec MatModel BnModel SolutionModel ConvModel DeltaModel ProbeModel NSModel NSSpec NameModel DriverModel DriverSpec DriverProps
  ConfigModel ConfigSpec ConfigProof ConfigSetup ConfigInit ConfigUse ConfigProps ProgModel ProgSpec ProgProof.
Local Open Scope R_scope.
Local Open Scope string_scope.

Lemma program_lemma : forall rd lambdify amgx load np y axs bcs nu vel pe c wc wi wd,
  documented rd lambdify amgx load np y axs bcs nu vel pe c wc wi wd ->
  exists m D types values U0 p0 probes,
    (createMesh rd np (Some y) = Ok (Some (m, D)) /\ parseBCs rd (Some y) = Ok (types, values) /\
     setInitialConditions rd lambdify (Some y) m D = Ok (mkSol U0 p0) /\
     ns_setup rd lambdify amgx load np (Some y) =
       Ok (mkBuilt (mkConf (rc_out c) (rc_logs c) (rc_start c) (rc_nt c) (rc_nsave c) (rc_nrestart c)) m D types values
             (mkPar (rc_dt c) nu (rc_bn c) wc wi wd (match rc_poisson c with AmgX _ _ => true | KSP _ _ => false end)) (rc_t c) U0 p0
             (rc_velocity c) (rc_poisson c) probes)) /\
    mesh_setup m D /\ bc_fits m types /\ m_dim m = lenZ axs /\ (forall d, ds_np D d = np d) /\
    (forall ax d, In ax axs -> In (ax_dir ax, d) doc_directions -> built_axis m ax d) /\
    (forall f loc ty v, In (f, loc, ty, v) bcs -> types f loc = ty /\ values f loc = v) /\
    (forall id f i j k, nthZ (packed_layout (m_dim m) D) id = Some (f, (i, j, k)) ->
       exists e, nthZ vel f = Some e /\ U0 id = e (xyz m f 0 i) (xyz m f 1 j) (xyz m f 2 k) 0 nu) /\
    (forall id i j k, nthZ (field_layout D 3) id = Some (i, j, k) -> p0 id = pe (xyz m 3 0 i) (xyz m 3 1 j) (xyz m 3 2 k) 0 nu) /\
    describes_probes rd (lenZ axs) (rc_out c) y probes /\
    forall solver_result probe_ops fuel d,
      ns_program rd lambdify amgx load np solver_result probe_ops fuel (Some y) d =
      ns_main fuel (mkConf (rc_out c) (rc_logs c) (rc_start c) (rc_nt c) (rc_nsave c) (rc_nrestart c)) m D
        (mkPar (rc_dt c) nu (rc_bn c) wc wi wd (match rc_poisson c with AmgX _ _ => true | KSP _ _ => false end))
        types values (rc_t c) U0 p0 (probe_ops probes) (convection m D) (solver_result (rc_velocity c)) (solver_result (rc_poisson c)) d.
Proof.
  intros rd lam amgx load np y axs bcs nu vel pe c wc wi wd [Hz Hd H1 H2 H3 H4 (H5 & H6 & H7) Hi Hv Hr Hc Hdf (pr0 & Hp)].
  destruct (configuration_builds_simulation rd y axs bcs np Hd H1 H2 H3 H4 H5 H6 H7) as (m & D & types & values & Em & Eb & Hs & Hf & Md & Np & Tb & Ax & Bd).
  destruct (initial_conditions rd lam Hz m D Hs y nu vel pe Hi ltac:(lia)) as (s & Es & Us & Ps).
  destruct Hr as (st & ps & dir & -> & Eps & Edir & Eout & Elogs & Edt & Et & Ess & Ent & Ens & Enr & Ebn & Ec & Ed & Ev & Epo).
  destruct (probes_read rd (lenZ axs) (rc_out c) st pr0 Hp) as (probes & Epr & Hpr).
  destruct (convection_read _ _ _ _ Eps Ec Hc) as (sc & Esc & Wc).
  destruct (diffusion_read _ _ _ _ _ Eps Ed Hdf) as (sd & Esd & Wi & Wd).
  destruct Hi as (st' & fl & ws & E0 & Efl & Enu & _). injection E0 as <-.
  exists m, D, types, values, (UGlobal s), (pGlobal s), probes.
  assert (E : ns_setup rd lam amgx load np (Some (YMap st)) =
    Ok (mkBuilt (mkConf (rc_out c) (rc_logs c) (rc_start c) (rc_nt c) (rc_nsave c) (rc_nrestart c)) m D types values
        (mkPar (rc_dt c) nu (rc_bn c) wc wi wd (pins (rc_poisson c))) (rc_t c) (UGlobal s) (pGlobal s) (rc_velocity c) (rc_poisson c) probes)).
  { unfold ns_setup. cbn [yget_mut yget bind]. rewrite Eps. cbn [yget_mut yget bind].
    rewrite (real_read _ _ _ _ Edt). cbn [bind]. rewrite (int_read _ _ _ _ Ent). cbn [bind]. rewrite (int_read _ _ _ _ Ens). cbn [bind].
    rewrite (int_read _ _ _ _ Enr). cbn [bind]. rewrite Efl. cbn [yget_mut yget bind]. rewrite (real_read _ _ _ _ Enu). cbn [bind].
    rewrite Em. cbn [used bind]. rewrite (word_read _ _ _ Eout). cbn [as_string bind].
    destruct (NSTotal.mapM_total (fun r => used (createBoundary_factory rd m D r (Some (YMap st)))) (zrange 0 (nranks D))) as (l & El).
    { intros r Hr. apply zrange_In in Hr. destruct (Bd r Hr) as (b & Eb' & _). exists b. rewrite Eb'. reflexivity. }
    rewrite El. cbn [bind]. rewrite Eb. cbn [bind]. rewrite Es. cbn [bind]. rewrite Esc. cbn [bind]. rewrite Esd. cbn [bind].
    rewrite (solver_read amgx load st ps dir "velocity" _ Eps Edir Ev). cbn [used bind].
    rewrite (solver_read amgx load st ps dir "poisson" _ Eps Edir Epo). cbn [used bind].
    rewrite Md, Epr. cbn [bind]. rewrite (word_read _ _ _ Elogs). cbn [as_string bind].
    rewrite (int_or_read _ _ _ _ _ Ess), (real_or_read _ _ _ _ _ Et), (int_or_read _ _ _ _ _ Ebn), Wc, Wi, Wd. reflexivity. }
  split; [split; [exact Em|]; split; [exact Eb|]; split; [rewrite Es; now destruct s|exact E]|].
  repeat (split; [assumption|]).
  intros sr po fuel d. unfold ns_program. rewrite E. reflexivity.
Qed.

(** The mesh, the boundary conditions and the initial fields depend on the
    sections "mesh" and "flow" only. *)
Lemma parseBCs_flow rd st st' : assoc st "flow" = assoc st' "flow" -> parseBCs rd (Some (YMap st)) = parseBCs rd (Some (YMap st')).
Proof. intros E. unfold parseBCs. cbn [yget bind]. now rewrite E. Qed.
Lemma createMesh_sections rd np st st' : assoc st "mesh" = assoc st' "mesh" -> assoc st "flow" = assoc st' "flow" ->
  createMesh rd np (Some (YMap st)) = createMesh rd np (Some (YMap st')).
Proof. intros E1 E2. unfold createMesh, mesh_init. cbn [yget bind]. now rewrite E1, (parseBCs_flow _ _ _ E2). Qed.
Lemma ics_flow rd lam st st' m D : assoc st "flow" = assoc st' "flow" ->
  setInitialConditions rd lam (Some (YMap st)) m D = setInitialConditions rd lam (Some (YMap st')) m D.
Proof. intros E. unfold setInitialConditions, parseICs. cbn [yget bind]. now rewrite E. Qed.

Lemma no_convective_read dim types (bcs : list (Z * Z * bctype * R)) m : m_dim m = dim -> bcs_ok dim bcs ->
  (forall f loc ty v, In (f, loc, ty, v) bcs -> types f loc = ty) -> (forall f loc v, ~ In (f, loc, CONVECTIVE, v) bcs) -> no_convective m types.
Proof.
  intros <- (_ & Hk & _) Ht Hn f loc Hf Hl Hc. pose proof (proj2 (Hk f loc) (conj Hf Hl)) as Hin. apply in_map_iff in Hin.
  destruct Hin as ([[[f' loc'] ty] v] & E & Hi). injection E as -> ->. rewrite (Ht _ _ _ _ Hi) in Hc. subst ty. eapply Hn; eauto.
Qed.

(** * No explicit weights: the convection operator is never applied *)
Lemma rotate_nil : rotate [] = Ok [].
Proof. reflexivity. Qed.
Lemma rhs_noconv n m D P O conv conv' s : s_conv s = [] ->
  rhs_velocity n m D P O conv s = rhs_velocity n m D P O conv' s /\ forall r s', rhs_velocity n m D P O conv s = Ok (r, s') -> s_conv s' = [].
Proof.
  intros E. unfold rhs_velocity. rewrite E, rotate_nil. cbn [bind]. change (0 <? lenZ (@nil vec))%Z with false. cbv iota. cbn [bind]. split; [reflexivity|].
  intros r s' H. repeat (let x := fresh in apply bind_ok_inv in H; destruct H as (x & _ & H)). injection H as _ <-. reflexivity.
Qed.
Lemma advance_noconv m D P O conv conv' vs ps s : s_conv s = [] ->
  advance m D P O conv vs ps s = advance m D P O conv' vs ps s /\ forall s', advance m D P O conv vs ps s = Ok s' -> s_conv s' = [].
Proof.
  intros E. unfold advance, advance_with, assembleRHSVelocity.
  set (s0 := mkNS _ _ _ _ _ _ _ _). destruct (rhs_noconv (n_pressure m) m D P O conv conv' s0 E) as [H1 H2]. rewrite <- H1. split; [reflexivity|].
  intros s' H. apply bind_ok_inv in H. destruct H as ((r & s1) & Er & H). apply H2 in Er.
  repeat (let x := fresh in apply bind_ok_inv in H; destruct H as (x & _ & H)). injection H as <-. exact Er.
Qed.
Lemma drive_noconv m D P O conv conv' vs ps conf mon fuel : forall s d, s_conv s = [] ->
  drive fuel conf m D mon (advance m D P O conv vs ps) s d = drive fuel conf m D mon (advance m D P O conv' vs ps) s d.
Proof.
  induction fuel as [|f IH]; intros s d E; cbn [drive]; [reflexivity|]. destruct (finished conf s); [reflexivity|].
  destruct (advance_noconv m D P O conv conv' vs ps s E) as [H1 H2]. rewrite <- H1. destruct (advance m D P O conv vs ps s) as [s'| |]; [|reflexivity|reflexivity].
  specialize (H2 s' eq_refl). cbn [bind]. destruct (write_step conf m D mon s' d); [|reflexivity|reflexivity]. cbn [bind]. now rewrite (IH _ _ H2).
Qed.
Lemma load_nil m d path g : load_history m d path g [] = Ok [].
Proof. reflexivity. Qed.
Lemma main_noconv m D P types values t0 U0 p0 conv conv' vs ps conf mon fuel d : p_cexp P = [] ->
  ns_main fuel conf m D P types values t0 U0 p0 mon conv vs ps d = ns_main fuel conf m D P types values t0 U0 p0 mon conv' vs ps d.
Proof.
  intros E. unfold ns_main. destruct (ns_init m D P types values t0 (c_nstart conf) U0 p0) as [[O s0]| |] eqn:EI; [|reflexivity|reflexivity]. cbn [bind].
  assert (E0 : s_conv s0 = []).
  { unfold ns_init in EI. repeat (let x := fresh in apply bind_ok_inv in EI; destruct EI as (x & _ & EI)). injection EI as _ <-. cbn. now rewrite E. }
  unfold io_initial. destruct (s_ite s0 =? 0)%Z; cbn [bind]; [now rewrite (drive_noconv m D P O conv conv')|].
  destruct (read_restart m D _ _ s0) as [s1| |] eqn:ER; [|reflexivity|reflexivity]. cbn [bind].
  rewrite (drive_noconv m D P O conv conv'); [reflexivity|].
  unfold read_restart in ER. destruct (run_ops (init_ops m conf) d _); [|discriminate]. rewrite E0, load_nil in ER.
  apply bind_ok_inv in ER. destruct ER as ([U p] & _ & ER). apply bind_ok_inv in ER. destruct ER as (t & _ & ER). cbn [bind] in ER.
  apply bind_ok_inv in ER. destruct ER as (ds & _ & ER). apply bind_ok_inv in ER. destruct ER as (B & _ & ER). injection ER as <-. reflexivity.
Qed.
