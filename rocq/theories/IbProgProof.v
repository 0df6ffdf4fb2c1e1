(** The immersed-boundary programs on a documented configuration. *)
From Coq Require Import Ascii String Permutation ZifyBool.
From Verif Require Import Prelude ZSum RSum TypesModel GridModel GridSpec GridProof MeshProof IndexModel IndexSpec BoundaryModel BoundarySpec BoundaryProof
  OperatorModel OperatorSpec MatModel BnModel SolutionModel ConvModel BodyModel BodySpec BodyProps DeltaModel DeltaSpec DeltaProof ProbeModel NSModel NSSpec NameModel DriverModel DriverSpec DriverProps
  IbpmModel IbpmSpec IbpmOsc IbOutModel IbOutSpec ConfigModel ConfigSpec ConfigProof ConfigSetup ConfigInit ConfigUse ConfigProps ProgModel ProgSpec ProgProof ProgRun IbProgModel IbProgSpec.
Local Open Scope R_scope.

(** * The mesh *)
(** Each direction of the mesh is an axis of the configuration. *)
Lemma axis_of axs d : (lenZ axs = 2 \/ lenZ axs = 3)%Z -> Permutation (map ax_dir axs) (firstn (length axs) ["x"; "y"; "z"]%string) -> (0 <= d < lenZ axs)%Z ->
  exists ax, In ax axs /\ In (ax_dir ax, d) doc_directions.
Proof.
  intros Hl Hp Hd. assert (H : forall w, In w (firstn (length axs) ["x"; "y"; "z"]%string) -> exists ax, In ax axs /\ ax_dir ax = w).
  { intros w Hw. apply (Permutation_in w (Permutation_sym Hp)) in Hw. apply in_map_iff in Hw. destruct Hw as (ax & E & Hi). eauto. }
  assert (El : (length axs = 2 \/ length axs = 3)%nat) by (unfold lenZ in *; lia).
  assert (Hw : exists w, In w (firstn (length axs) ["x"; "y"; "z"]%string) /\ In (w, d) doc_directions).
  { destruct El as [El|El]; unfold lenZ in Hd; rewrite El in *; cbn [firstn].
    - assert (d = 0 \/ d = 1)%Z as [->| ->] by lia; [exists "x"%string|exists "y"%string]; cbn; tauto.
    - assert (d = 0 \/ d = 1 \/ d = 2)%Z as [->|[->| ->]] by lia; [exists "x"%string|exists "y"%string|exists "z"%string]; cbn; tauto. }
  destruct Hw as (w & Hw & Hd'). destruct (H w Hw) as (ax & Hi & <-). eauto.
Qed.

Section Axes.
Variables (m : mesh) (D : dec) (axs : list axis).
Hypothesis Hs : mesh_setup m D.
Hypothesis Hd : m_dim m = lenZ axs.
Hypothesis Hl : (lenZ axs = 2 \/ lenZ axs = 3)%Z.
Hypothesis Hp : Permutation (map ax_dir axs) (firstn (length axs) ["x"; "y"; "z"]%string).
Hypothesis Ha : forall ax d, In ax axs -> In (ax_dir ax, d) doc_directions -> built_axis m ax d.

Lemma axis_dir ax d : In ax axs -> In (ax_dir ax, d) doc_directions -> (0 <= d < m_dim m)%Z.
Proof.
  intros Hi Hdd. rewrite Hd. assert (In (ax_dir ax) (firstn (length axs) ["x"; "y"; "z"]%string)) as Hw by (apply (Permutation_in _ Hp), in_map, Hi).
  assert (El : (length axs = 2 \/ length axs = 3)%nat) by (unfold lenZ in *; lia). unfold lenZ.
  destruct El as [El|El]; rewrite El in *; cbn in Hw, Hdd; destruct Hdd as [E|[E|[E|[]]]]; injection E as E0 E1; subst d; try lia.
  rewrite <- E0 in Hw. destruct Hw as [C|[C|[]]]; discriminate.
Qed.
(** The ends of the mesh. *)
Lemma axis_ends ax d : In ax axs -> In (ax_dir ax, d) doc_directions ->
  m_min m d = ax_start ax /\ m_max m d = last_end (ax_start ax) (ax_subs ax) /\ m_n m 3 d = sumZ (map sd_cells (ax_subs ax)).
Proof.
  intros Hi Hdd. pose proof (axis_dir ax d Hi Hdd) as Hr. destruct (Ha ax d Hi Hdd) as (B1 & B2 & B3 & _).
  destruct Hs as (mn & mx & per & w & np & Hg & Em & _). destruct (createMesh_misc _ _ _ _ _ _ Em) as (_ & E1 & E2 & _). rewrite E1, E2.
  destruct (mesh_vertex _ _ _ _ _ _ Em d Hr) as (_ & V & _). destruct (mesh_pressure _ _ _ _ _ _ Em d Hr) as (P & _).
  pose proof (lenZ_nonneg (w d)). split; [|split].
  - rewrite V in B2 by lia. injection B2 as B2. unfold vtx in B2. cbn in B2. unfold GridSpec.total in B2. cbn in B2. lra.
  - rewrite P, V in B3 by lia. injection B3 as B3. rewrite vtx_end in B3. destruct Hg as (_ & Hg). destruct (Hg d Hr) as (_ & _ & T). rewrite T. exact B3.
  - exact B1.
Qed.
End Axes.

(** * The bodies *)
Section Bodies.
Local Open Scope string_scope.
Variables (lx : lexer) (np : Z -> Z) (files : string -> option text).
Hypothesis Hlx : proper lx.

Lemma open_read dim path tx rows : (1 <= dim)%Z -> (1 <= lenZ rows)%Z -> files path = Some tx -> point_file lx dim (lenZ rows) rows tx ->
  open_points lx np files dim path = Ok (default_body (np_size np) (lenZ rows), rows).
Proof.
  intros Hd Hn Hf Hp. unfold open_points, BodyModel.sb_init. rewrite Hf, (body_file_read lx dim (lenZ rows) rows tx Hlx Hd Hn Hp). cbn [bind].
  destruct Hp as (hd & ls & _ & _ & _ & _ & F). destruct rows as [|r t]; [cbn in Hn; lia|]. inversion F as [|? ? L _]; subst. 
  unfold Prelude.rd. rewrite nthZ_cons_0. cbn [bind]. rewrite Z.eqb_refl. reflexivity.
Qed.

Lemma body_read dim dir st l i yb b : (1 <= dim)%Z -> word_entry (YMap st) "directory" dir -> assoc st "bodies" = Some (YSeq l) -> nthZ l i = Some yb ->
  describes_body lx files dim dir i yb b ->
  pack_body (body * list (list R)) (open_points lx np files) to_string dim (Some (YMap st)) i = Ok (fst b, (default_body (np_size np) (lenZ (snd b)), snd b)).
Proof.
  intros Hd Hdir Eb Ei (lb & w & path & tx & -> & Hn & Ht & Hw & Hpath & Hf & H1 & Hpf).
  unfold pack_body. cbn [yget bind]. rewrite Eb. cbn [yidx]. rewrite Ei. cbn [yget bind]. rewrite (word_read _ _ _ Hw). cbn [as_string bind].
  assert (E : (if is_absolute w then Ok w else do dr <- as_string (assoc st "directory"); Ok (dr ++ "/" ++ w)) = Ok path).
  { destruct Hpath as [[-> ->]|[-> ->]]; [reflexivity|]. rewrite (word_read _ _ _ Hdir). reflexivity. }
  rewrite E. cbn [bind]. rewrite (word_or_read _ _ _ _ Ht), (word_or_read _ _ _ _ Hn). unfold createSingleBody. rewrite String.eqb_refl.
  rewrite (open_read dim path tx (snd b) Hd H1 Hf Hpf). reflexivity.
Qed.

Lemma mapM_nth {A B} (f : Z -> res B) (g : A -> B) (l : list A) : forall a, 
  (forall i x, nthZ l i = Some x -> f (a + i)%Z = Ok (g x)) -> mapM f (zrange a (a + lenZ l)) = Ok (map g l).
Proof.
  induction l as [|x t IH]; intros a H.
  - rewrite zrange_nil by (cbn; lia). reflexivity.
  - rewrite lenZ_cons. pose proof (lenZ_nonneg t). rewrite zrange_cons by lia. cbn [mapM map].
    rewrite <- (Z.add_0_r a) at 1. rewrite (H 0%Z x (nthZ_cons_0 _ _)). cbn [bind]. replace (a + (1 + lenZ t))%Z with ((a + 1) + lenZ t)%Z by lia.
    rewrite IH; [reflexivity|]. intros i y Hi. pose proof (nthZ_Some_range _ _ _ Hi). replace (a + 1 + i)%Z with (a + (i + 1))%Z by lia. apply H. rewrite nthZ_cons_pos by lia.
    now replace (i + 1 - 1)%Z with i by lia.
Qed.

Lemma bodies_read dim y bodies : (1 <= dim)%Z -> describes_bodies lx files dim y bodies ->
  the_bodies lx np files dim (Some y) = Ok (map (fun b => (fst b, (default_body (np_size np) (lenZ (snd b)), snd b))) bodies).
Proof.
  intros Hd (st & dir & l & -> & Hdir & Eb & L & H). unfold the_bodies, createBodyPack, pack_init. cbn [yget bind]. rewrite Eb. cbn [ysize].
  rewrite L. pose proof (mapM_nth (pack_body (body * list (list R)) (open_points lx np files) to_string dim (Some (YMap st)))
    (fun b => (fst b, (default_body (np_size np) (lenZ (snd b)), snd b))) bodies 0) as E. rewrite Z.add_0_l in E. rewrite E; [reflexivity|].
  intros i b Hi. rewrite Z.add_0_l. pose proof (nthZ_Some_range _ _ _ Hi) as Hr. rewrite <- L in Hr. destruct (nthZ_in_range _ _ Hr) as (yb & Ey).
  exact (body_read dim dir st l i yb b Hd Hdir Eb Ey (H i yb b Ey Hi)).
Qed.
Lemma dealt_snd bodies : map snd (map (fun b : string * list (list R) => (fst b, (default_body (np_size np) (lenZ (snd b)), snd b))) bodies) = dealt (np_size np) bodies.
Proof. unfold dealt. rewrite map_map. reflexivity. Qed.

Lemma dealt_ok m D y bodies : mesh_setup m D -> (forall d, ds_np D d = np d) -> describes_bodies lx files (m_dim m) y bodies -> bodies_ok m D (dealt (np_size np) bodies).
Proof.
  intros Hs Hnp (st & dir & l & -> & _ & _ & L & H). pose proof (setup_facts _ _ Hs) as F.
  assert (Hsz : nranks D = np_size np) by (unfold nranks, np_size; now rewrite !Hnp).
  assert (H1 : (1 <= np_size np)%Z).
  { rewrite <- Hsz. unfold nranks.
    pose proof (mf_np _ _ F 3%Z 0%Z ltac:(lia) ltac:(lia)). pose proof (mf_np _ _ F 3%Z 1%Z ltac:(lia) ltac:(lia)). pose proof (mf_np _ _ F 3%Z 2%Z ltac:(lia) ltac:(lia)). nia. }
  assert (Q : forall b, In b bodies -> (1 <= lenZ (snd b))%Z /\ Forall (fun r => lenZ r = m_dim m) (snd b)).
  { intros b Hb. apply In_nthZ in Hb. destruct Hb as (i & Hi & Ei). rewrite <- L in Hi. destruct (nthZ_in_range _ _ Hi) as (yb & Ey).
    destruct (H i yb b Ey Ei) as (lb & w & path & tx & _ & _ & _ & _ & _ & _ & Hn & Hp). split; [exact Hn|].
    destruct Hp as (hd & ls & _ & _ & _ & _ & F'). exact F'. }
  split.
  - rewrite Hsz. split; [exact H1|]. split; [destruct (mf_dim _ _ F); lia|]. unfold dealt. rewrite map_map. apply Forall_forall. intros b Hb.
    apply in_map_iff in Hb. destruct Hb as (x & <- & Hx). cbn. apply default_distribution; [exact H1|]. pose proof (Q x Hx). lia.
  - unfold dealt. apply Forall_forall. intros bc Hb. apply in_map_iff in Hb. destruct Hb as (x & <- & Hx). cbn. split; [reflexivity|]. apply (Q x Hx).
Qed.

Lemma dealt_owned bodies b bc r : (forall x, In x bodies -> (np_size np <= lenZ (snd x))%Z) -> nthZ (dealt (np_size np) bodies) b = Some bc -> (0 <= r < np_size np)%Z ->
  (0 < b_l (fst bc) r)%Z.
Proof.
  intros H Hb Hr. apply nthZ_In in Hb. unfold dealt in Hb. apply in_map_iff in Hb. destruct Hb as (x & <- & Hx). cbn. unfold dmda_l.
  pose proof (H x Hx). assert (1 <= lenZ (snd x) / np_size np)%Z by (apply Z.div_le_lower_bound; lia). destruct (_ >? _)%Z; lia.
Qed.
Lemma dealt_located bodies b i X : located (dealt (np_size np) bodies) b i X -> exists x, In x bodies /\ In X (snd x).
Proof.
  intros (bc & Hb & Hi). apply nthZ_In in Hb. unfold dealt in Hb. apply in_map_iff in Hb. destruct Hb as (x & <- & Hx). exists x. split; [exact Hx|]. cbn in Hi. eapply nthZ_In; eauto.
Qed.
End Bodies.

(** * The programs *)
Section Programs.
Local Open Scope string_scope.
Variables (rd : reader) (lx : lexer) (lambdify : string -> option (R -> R -> R -> R -> R -> R)) (amgx : bool) (load : string -> bool) (np : Z -> Z) (files : string -> option text).
Variables (y : yaml) (axs : list axis) (bcs : list (Z * Z * bctype * R)) (nu : R) (vel : list (R -> R -> R -> R -> R -> R)) (pe : R -> R -> R -> R -> R -> R)
  (c : runconf) (wc : list R) (wi : R) (wd : list R) (bodies : list (string * list (list R))) (kname : string).
Hypothesis Hlx : proper lx.
Hypothesis Hdoc : documented rd lambdify amgx load np y axs bcs nu vel pe c wc wi wd.
Hypothesis Hb : describes_bodies lx files (lenZ axs) y bodies.
Hypothesis Hk : describes_kernel y kname.

Lemma mesh_size_read : mesh_size (Some y) = Ok (lenZ axs).
Proof.
  destruct (doc_mesh _ _ _ _ _ _ _ _ _ _ _ _ _ _ _ Hdoc) as (st & ays & fl & bys & parts & -> & E & F & _). unfold mesh_size. cbn [yget bind]. rewrite E. cbn [ysize].
  f_equal. unfold lenZ. f_equal. clear - F. induction F; cbn; congruence.
Qed.
Lemma delta_read : delta_word (Some y) = Ok kname.
Proof. destruct Hk as (st & ps & -> & E & Hw). unfold delta_word. cbn [yget_mut yget bind]. rewrite E. cbn [yget bind]. now rewrite (word_or_read _ _ _ _ Hw). Qed.

Lemma ib_lemma : exists m D types values U0 p0 probes,
  (createMesh rd np (Some y) = Ok (Some (m, D)) /\ parseBCs rd (Some y) = Ok (types, values) /\ setInitialConditions rd lambdify (Some y) m D = Ok (mkSol U0 p0)) /\
  simulates rd np y axs bcs nu vel pe c m D types values U0 p0 probes /\ bodies_ok m D (dealt (np_size np) bodies) /\
  (forall sr po fuel d, ib_program rd lx lambdify amgx load np files sr po fuel (Some y) d =
     ib_main fuel (run_conf c) m D (run_par c nu wc wi wd) types values kname (dealt (np_size np) bodies) (rc_t c) U0 p0 (po probes) (convection m D) (sr (rc_velocity c)) (sr (rc_poisson c)) d) /\
  (forall fsol, describes_forces_solver amgx load y fsol -> forall sr po fuel d, d_program rd lx lambdify amgx load np files sr po fuel (Some y) d =
     d_main fuel (run_conf c) m D (run_par c nu wc wi wd) types values kname (dealt (np_size np) bodies) (rc_t c) U0 p0 (fun x => po probes (x_ns x)) (convection m D)
       (sr (rc_velocity c)) (sr (rc_poisson c)) (sr fsol) d) /\
  (forall fsol f Dc KC name rows, describes_forces_solver amgx load y fsol -> describes_kinematics rd y f Dc KC -> bodies = [(name, rows)] ->
   forall sr po fr fuel d, osc_program rd lx lambdify amgx load np files sr po fr fuel (Some y) d =
     r_main fuel (run_conf c) m D (run_par c nu wc wi wd) types values kname (dealt (np_size np) bodies)
       (osc_motion (nranks D) f (osc_Am Dc KC) (osc_Um f (osc_Am Dc KC)) (default_body (np_size np) (lenZ rows)) rows)
       (rc_t c) U0 p0 (fun s => po probes (x_ns (r_x s))) (convection m D) (sr (rc_velocity c)) (sr (rc_poisson c)) (fr fsol) d).
Proof.
  destruct (program_lemma _ _ _ _ _ _ _ _ _ _ _ _ _ _ _ Hdoc) as (m & D & types & values & U0 & p0 & probes & (M1 & B1 & I1 & S1) & Hs & Hf & Md & Hn & Ha & Ht & HU & Hp & Hpr & _).
  exists m, D, types, values, U0, p0, probes. split; [auto|].
  assert (Hd1 : (1 <= lenZ axs)%Z) by (destruct (doc_dim _ _ _ _ _ _ _ _ _ _ _ _ _ _ _ Hdoc); lia).
  pose proof (bodies_read lx np files Hlx (lenZ axs) y bodies Hd1 Hb) as Eb.
  assert (Hbo : bodies_ok m D (dealt (np_size np) bodies)) by (eapply (dealt_ok lx np files); eauto; rewrite Md; exact Hb).
  split; [unfold simulates; auto 12|]. split; [exact Hbo|].
  assert (Eset : forall fsol, describes_forces_solver amgx load y fsol -> d_setup rd lx lambdify amgx load np files (Some y) =
    Ok (mkBuilt (run_conf c) m D types values (run_par c nu wc wi wd) (rc_t c) U0 p0 (rc_velocity c) (rc_poisson c) probes,
        map (fun b => (fst b, (default_body (np_size np) (lenZ (snd b)), snd b))) bodies, fsol, kname)).
  { intros fsol Hfs. unfold d_setup. rewrite S1. cbn [bind nb_mesh]. rewrite Md, Eb. cbn [bind].
    destruct Hfs as (st & ps & dir & Ey & E1 & E2 & E3). rewrite Ey in E2. pose proof (solver_read amgx load st ps dir "forces" fsol E1 E2 E3) as Ef. rewrite <- Ey in Ef.
    rewrite Ef. cbn [used bind]. rewrite delta_read. reflexivity. }
  split; [|split].
  - intros sr po fuel d. unfold ib_program. rewrite mesh_size_read. cbn [bind]. rewrite Eb. cbn [bind]. rewrite S1. cbn [bind]. rewrite delta_read. cbn [bind]. rewrite dealt_snd. reflexivity.
  - intros fsol Hfs sr po fuel d. unfold d_program. rewrite (Eset fsol Hfs). cbn [bind]. rewrite dealt_snd. reflexivity.
  - intros fsol f Dc KC name rows Hfs Hki Eb1 sr po fr fuel d. unfold osc_program. rewrite (Eset fsol Hfs). cbn [bind].
    assert (Ek : read_kinematics rd (Some y) = Ok (f, Dc, KC)).
    { destruct Hki as (st & l & kin & ce & Ey & E1 & E2 & K1 & K2 & K3 & E3 & Lc). unfold read_kinematics. rewrite Ey. cbn [yget bind]. rewrite E1. cbn [yidx]. rewrite nthZ_cons_0. cbn [yget bind].
      rewrite E2. cbn [yget bind]. rewrite E3, (real_or_read _ _ _ _ _ K1), (real_or_read _ _ _ _ _ K2), (real_or_read _ _ _ _ _ K3). cbn [yidx bind]. reflexivity. }
    rewrite Ek. cbn [bind]. rewrite dealt_snd. rewrite Eb1. reflexivity.
Qed.
End Programs.

(** * Completion *)
Lemma lenZ_flat_map {A B} (f : A -> list B) l n : (forall x, In x l -> lenZ (f x) = n) -> lenZ (flat_map f l) = (lenZ l * n)%Z.
Proof.
  induction l as [|x t IH]; intros H; [reflexivity|]. cbn [flat_map]. rewrite lenZ_app, lenZ_cons, IH, (H x (or_introl eq_refl)); [lia|].
  intros y Hy. apply H. now right.
Qed.
Lemma reported_shape m D bodies t f l : (0 <= m_dim m)%Z -> reported m D bodies t f l -> exists vals, l = t :: vals /\ lenZ vals = (lenZ bodies * m_dim m)%Z.
Proof.
  intros Hd (force & _ & ->). eexists. split; [reflexivity|]. rewrite (lenZ_flat_map _ _ (m_dim m)).
  - rewrite zrange_lenZ by apply lenZ_nonneg. lia.
  - intros b Hb. apply zrange_In in Hb. destruct (nthZ_in_range _ _ Hb) as (bc & ->). rewrite lenZ_map, zrange_lenZ; lia.
Qed.

Lemma kernel_read kernel reach : In (kernel, reach) doc_kernels -> exists K, getKernel kernel = Ok (K, reach).
Proof. intros [E|[E|[]]]; injection E as <- <-; eexists; reflexivity. Qed.

Lemma fits m D axs bcs types reach X : mesh_setup m D -> m_dim m = lenZ axs -> (lenZ axs = 2 \/ lenZ axs = 3)%Z ->
  Permutation (map ax_dir axs) (firstn (length axs) ["x"; "y"; "z"]%string) ->
  (forall ax d, In ax axs -> In (ax_dir ax, d) doc_directions -> built_axis m ax d) ->
  bcs_ok (lenZ axs) bcs -> (forall f loc ty v, In (f, loc, ty, v) bcs -> types f loc = ty) ->
  kernel_fits axs bcs reach X -> inside_domain m X /\ in_reach m types reach X.
Proof.
  intros Hs Hd Hl Hp Ha Hbc Ht Hf. pose proof (setup_facts _ _ Hs) as F. split.
  - intros d Hr. destruct (axis_of axs d Hl Hp ltac:(lia)) as (ax & Hi & Hdd). destruct (axis_ends m D axs Hs Hd Hl Hp Ha ax d Hi Hdd) as (-> & -> & _).
    apply (proj1 (Hf ax d Hi Hdd)).
  - intros d k Hr Hty Hk. destruct (axis_of axs d Hl Hp ltac:(lia)) as (ax & Hi & Hdd). destruct (axis_ends m D axs Hs Hd Hl Hp Ha ax d Hi Hdd) as (E1 & E2 & E3).
    destruct (Ha ax d Hi Hdd) as (_ & _ & _ & pieces & Hpk & B4). destruct Hk as [Hk0 Hk]. unfold crd in Hk. rewrite !B4 in Hk by lia. cbn [ok_or] in Hk. destruct Hbc as (_ & Hkey & _). 
    assert (Hin : In (0%Z, d) (map (fun e : Z * Z * bctype * R => let '(f, loc, _, _) := e in (f, loc)) bcs)) by (apply Hkey; lia).
    apply in_map_iff in Hin. destruct Hin as ([[[f loc] ty] v] & E & Hin). injection E as -> ->. pose proof (Ht _ _ _ _ Hin) as E. rewrite Hty in E. subst ty.
    destruct (proj2 (Hf ax d Hi Hdd) v k pieces Hin Hpk ltac:(lia) Hk) as [L1 L2]. split; [exact L1|]. intros c Hc. rewrite <- E3 in L2.
    destruct (Z.eq_dec c d) as [->|E].
    + rewrite (mf_n_own _ _ F d Hr). destruct (periodic_dir m d); lia.
    + rewrite (mf_n_oth _ _ F c d Hc ltac:(destruct (mf_dim _ _ F); lia) E). lia.
Qed.

(** * Bad bodies *)
Lemma mapM_first {A B} (f : A -> res B) l1 x l2 : (forall y, In y l1 -> exists z, f y = Ok z) -> (forall z, f x <> Ok z) ->
  mapM f (l1 ++ x :: l2) = match f x with Ok _ => UB | Err e => Err e | UB => UB end.
Proof.
  induction l1 as [|y t IH]; intros H1 H2; cbn [app mapM].
  - destruct (f x) eqn:E; cbn [bind]; [exfalso; eapply H2; eauto|reflexivity|reflexivity].
  - destruct (H1 y (or_introl eq_refl)) as (z & ->). cbn [bind]. rewrite IH; [destruct (f x); reflexivity|intros; apply H1; now right|exact H2].
Qed.
Lemma zrange_split a b i : (a <= i < b)%Z -> zrange a b = (zrange a i ++ i :: zrange (i + 1) b)%list.
Proof. intros H. rewrite <- (zrange_cons i b) by lia. apply zrange_app; lia. Qed.

Lemma the_bodies_bad lx np files dim st dir l i lb : proper lx -> (1 <= dim)%Z -> word_entry (YMap st) "directory" dir -> assoc st "bodies"%string = Some (YSeq l) ->
  nthZ l i = Some (YMap lb) ->
  (forall j yb, (0 <= j < i)%Z -> nthZ l j = Some yb -> exists b, describes_body lx files dim dir j yb b) ->
  assoc lb "file"%string = None \/ (exists w, word_entry (YMap lb) "file" w /\ (exists ty, word_entry (YMap lb) "type" ty /\ ty <> "points"%string)) \/
  (exists w, word_entry (YMap lb) "file" w /\ files w = None /\ files (dir ++ "/" ++ w)%string = None) ->
  the_bodies lx np files dim (Some (YMap st)) = UB.
Proof.
  intros Hlx Hd Hdir Eb Ei Hpre Hbad. unfold the_bodies, createBodyPack, pack_init. cbn [yget bind]. rewrite Eb. cbn [ysize].
  pose proof (nthZ_Some_range _ _ _ Ei) as Hi. rewrite (zrange_split 0 (lenZ l) i Hi).
  set (f := pack_body (body * list (list R)) (open_points lx np files) to_string dim (Some (YMap st))).
  assert (Ef : f i = UB \/ exists e, f i = Err e /\ e <> EXC).
  { unfold f, pack_body. cbn [yget bind]. rewrite Eb. cbn [yidx]. rewrite Ei. cbn [yget bind].
    destruct Hbad as [-> |[(w & Hw & ty & Hty & Hn)|(w & Hw & N1 & N2)]].
    - right. eexists. split; [reflexivity|discriminate].
    - rewrite (word_read _ _ _ Hw), (word_read _ _ _ Hty). cbn [as_string bind as_string_or].
      assert (exists p, (if is_absolute w then Ok w else do dr <- as_string (assoc st "directory"%string); Ok (dr ++ "/" ++ w)%string) = Ok p) as (p & ->).
      { destruct (is_absolute w); [eauto|]. rewrite (word_read _ _ _ Hdir). cbn. eauto. }
      cbn [bind]. unfold createSingleBody. destruct (String.eqb_spec ty "points"); [contradiction|]. right. eexists. split; [reflexivity|discriminate].
    - rewrite (word_read _ _ _ Hw). cbn [as_string bind].
      assert (exists p, (if is_absolute w then Ok w else do dr <- as_string (assoc st "directory"%string); Ok (dr ++ "/" ++ w)%string) = Ok p /\ files p = None) as (p & -> & Hp).
      { destruct (is_absolute w); [eauto|]. rewrite (word_read _ _ _ Hdir). cbn. eauto. }
      cbn [bind]. unfold createSingleBody. destruct (String.eqb _ _); [|right; eexists; split; [reflexivity|discriminate]].
      left. unfold open_points, BodyModel.sb_init. rewrite Hp. reflexivity. }
  rewrite mapM_first.
  - destruct Ef as [->|(e & -> & He)]; cbn [ctor used bind]; [reflexivity|]. unfold ctor. destruct (Z.eqb_spec e EXC); [contradiction|reflexivity].
  - intros j Hj. apply zrange_In in Hj. destruct (nthZ_in_range l j ltac:(lia)) as (yb & Ey). destruct (Hpre j yb Hj Ey) as (b & Hb).
    eexists. exact (body_read lx np files Hlx dim dir st l j yb b Hd Hdir Eb Ey Hb).
  - intros z Ez. destruct Ef as [E|(e & E & _)]; rewrite E in Ez; discriminate.
Qed.

(** * Unknown kernels *)
Lemma ib_operators_unknown m D B name bodies : mesh_setup m D -> (forall w, ~ In (name, w) doc_kernels) ->
  ib_operators m D B name bodies = Err PETSC_ERR_ARG_UNKNOWN_TYPE.
Proof.
  intros Hs Hn. unfold ib_operators. destruct (AlgebraProps.diagonal_operators m D Hs) as (Rm & Ri & Mm & Mq & Id & -> & _ & -> & _). cbn [bind].
  unfold getKernel. destruct (String.eqb_spec name "ROMA_ET_AL_1999") as [->|]; [exfalso; eapply Hn; left; reflexivity|].
  destruct (String.eqb_spec name "PESKIN_2002") as [->|]; [exfalso; eapply Hn; right; left; reflexivity|]. reflexivity.
Qed.
Lemma d_init_unknown m D P types values name bodies t0 n0 U0 p0 : mesh_setup m D -> bc_fits m types -> (1 <= p_bn P)%Z -> (forall w, ~ In (name, w) doc_kernels) ->
  d_init m D P types values name bodies t0 n0 U0 p0 = Err PETSC_ERR_ARG_UNKNOWN_TYPE.
Proof.
  intros Hs Hb Hn Hk. unfold d_init. destruct (NSTotal.init_total m D P types values t0 n0 U0 p0 (setup_facts _ _ Hs) Hb Hn) as (ops & s0 & ->). cbn [bind].
  unfold createExtraOperators. now rewrite ib_operators_unknown.
Qed.
Lemma ib_init_unknown m D P types values name bodies t0 n0 U0 p0 : mesh_setup m D -> bc_fits m types -> (1 <= p_bn P)%Z -> (forall w, ~ In (name, w) doc_kernels) ->
  ib_init m D P types values name bodies t0 n0 U0 p0 = Err PETSC_ERR_ARG_UNKNOWN_TYPE.
Proof.
  intros Hs Hb Hn Hk. destruct (NSTotal.init_total m D P types values t0 n0 U0 p0 (setup_facts _ _ Hs) Hb Hn) as (ops & s0 & E). unfold ns_init in E.
  apply bind_ok_inv in E. destruct E as (bl & E1 & E). apply bind_ok_inv in E. destruct E as (B & E2 & E). apply bind_ok_inv in E. destruct E as (o & E3 & _).
  unfold createOperators in E3. apply bind_ok_inv in E3. destruct E3 as (dv & F1 & E3). apply bind_ok_inv in E3. destruct E3 as (g & F2 & E3). apply bind_ok_inv in E3. destruct E3 as (l & F3 & _).
  unfold ib_init. rewrite E1. cbn [bind]. rewrite E2. cbn [bind]. unfold ib_createOperators. rewrite F1. cbn [bind]. rewrite F2. cbn [bind]. rewrite F3. cbn [bind].
  now rewrite ib_operators_unknown.
Qed.
