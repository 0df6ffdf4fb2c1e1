(** C43 - C45, C53, C58: settings, words, factories, initial conditions, and the
    way from a configuration to the objects of a simulation. *)
From Coq Require Import Ascii String Permutation.
From Verif Require Import Prelude ZSum RSum TypesModel GridModel GridSpec GridProof IndexModel IndexSpec
  BoundaryModel BoundarySpec BoundaryProof OperatorModel OperatorSpec SolutionModel ExampleSetup
  ConfigModel ConfigSpec ConfigProof ConfigSetup ConfigInit ConfigUse.
Local Open Scope R_scope.
Local Open Scope string_scope.

(** * C43: settings *)

(** Each key gets the value of its last definition: command-line defaults for
    directory, output and logs, then the files in order. *)
Theorem settings_precedence : forall cli fs mkdir,
  mkdir (the_output cli) = true -> mkdir (the_logs cli) = true -> Forall (usable fs) (config_files cli) ->
  exists st, getSettings cli fs mkdir = ([the_output cli; the_logs cli], Ok st) /\
    NoDup (map fst st) /\ forall k v, assoc st k = Some v <-> last_def (all_definitions cli fs) k v.
Proof. exact settings_lemma. Qed.
Print Assumptions settings_precedence.

(** Success means that the directories exist and every chosen file was read. *)
Theorem settings_complete : forall cli fs mkdir dirs st,
  getSettings cli fs mkdir = (dirs, Ok st) ->
  mkdir (the_output cli) = true /\ mkdir (the_logs cli) = true /\ Forall (usable fs) (config_files cli).
Proof. exact settings_inv. Qed.
Print Assumptions settings_complete.

(** A missing file is reported, whichever file it is. *)
Theorem settings_missing_file : forall cli fs mkdir pre p post,
  mkdir (the_output cli) = true -> mkdir (the_logs cli) = true ->
  config_files cli = (pre ++ p :: post)%list -> Forall (usable fs) pre -> fs p = NoFile ->
  snd (getSettings cli fs mkdir) = Err PETSC_ERR_FILE_OPEN.
Proof. exact settings_missing. Qed.
Print Assumptions settings_missing_file.

Definition ex_cli (o : string) : option string :=
  if String.eqb o "-directory" then Some "/run" else if String.eqb o "-output" then Some "/data"
  else if String.eqb o "-flow" then Some "f.yaml" else None.
Definition ex_fs (p : string) : loaded :=
  if String.eqb p "/run/config.yaml" then Doc (YMap [("flow", YScalar "old"); ("mesh", YSeq []); ("output", YScalar "elsewhere")])
  else if String.eqb p "f.yaml" then Doc (YMap [("flow", YScalar "new")]) else NoFile.

Example settings_precedence_case :
  Forall (usable ex_fs) (config_files ex_cli) /\
  getSettings ex_cli ex_fs (fun _ => true) =
    (["/data"; "/data/logs"],
     Ok [("directory", YScalar "/run"); ("output", YScalar "elsewhere"); ("logs", YScalar "/data/logs");
         ("flow", YScalar "new"); ("mesh", YSeq [])]).
Proof.
  split; [|reflexivity]. cbn. repeat constructor; eexists; (split; [reflexivity|]); discriminate.
Qed.

(** The command line does not have the last word: a file that defines "output"
    (or "directory", "logs") replaces the option, after the directories of the
    option have been created. *)
Theorem settings_cli_overridden_refuted : ~ (forall cli fs mkdir dirs st s,
  getSettings cli fs mkdir = (dirs, Ok st) -> cli "-output" = Some s -> assoc st "output" = Some (YScalar s)).
Proof.
  intros H. pose proof (H ex_cli ex_fs (fun _ => true) _ _ "/data" (proj2 settings_precedence_case) eq_refl) as E.
  vm_compute in E. discriminate.
Qed.
Print Assumptions settings_cli_overridden_refuted.

(** It does when no file defines the key. *)
Theorem settings_cli_kept : forall cli fs mkdir dirs st,
  getSettings cli fs mkdir = (dirs, Ok st) ->
  (forall p, In p (config_files cli) -> ~ In "output" (map fst (file_entries fs p))) ->
  assoc st "output" = Some (YScalar (the_output cli)) /\ dirs = [the_output cli; the_logs cli].
Proof.
  intros cli fs mkdir dirs st H Hn. destruct (settings_inv _ _ _ _ _ H) as (A & B & C).
  destruct (settings_lemma cli fs mkdir A B C) as (st' & E & _ & D). rewrite H in E. injection E as -> <-.
  split; [|reflexivity]. apply D. exists [("directory", YScalar (the_directory cli))].
  exists (("logs", YScalar (the_logs cli)) :: flat_map (file_entries fs) (config_files cli)). split; [reflexivity|].
  cbn [map fst In]. intros [C'|C']; [discriminate|]. apply in_map_iff in C'. destruct C' as (kv & Ek & Hin).
  apply in_flat_map in Hin. destruct Hin as (p & Hp & Hi). apply (Hn p Hp). rewrite <- Ek. now apply in_map.
Qed.
Print Assumptions settings_cli_kept.

(** * C44: words *)

(** Every documented word has its documented meaning, whatever words were
    looked up before (the look-ups modify the dictionaries). *)
Theorem documented_words : forall hist w,
  (forall c, In (w, c) doc_directions -> fst (map_index dirX (map_after dirX str2dir_tab hist) w) = c) /\
  (forall c, In (w, c) doc_fields -> fst (map_index fU (map_after fU str2fd_tab hist) w) = c) /\
  (forall c, In (w, c) doc_locations -> fst (map_index XMINUS (map_after XMINUS str2bl_tab hist) w) = c) /\
  (forall c, In (w, c) doc_bctypes -> fst (map_index NOBC (map_after NOBC str2bt_tab hist) w) = c) /\
  (forall c, In (w, c) doc_probetypes -> fst (map_index POINT (map_after POINT str2pt_tab hist) w) = c).
Proof.
  intros hist w. rewrite !map_history. repeat split; intros c.
  - apply doc_dirs_read. - apply doc_fields_read. - apply doc_locs_read. - apply doc_types_read. - apply doc_probes_read.
Qed.
Print Assumptions documented_words.

Example documented_words_case :
  fst (map_index XMINUS (map_after XMINUS str2bl_tab ["lefft"; "yMinus"; "lefft"]) "zPlus") = ZPLUS /\
  map_after XMINUS str2bl_tab ["lefft"] <> str2bl_tab.
Proof. split; [reflexivity|]. intros E. apply (f_equal (@length _)) in E. vm_compute in E. discriminate. Qed.

(** A word outside the vocabulary is not rejected: it is read as the first
    constant, whatever was looked up before. *)
Theorem unknown_words_refuted : forall hist w,
  (~ In w (map fst str2dir_tab) -> fst (map_index dirX (map_after dirX str2dir_tab hist) w) = dirX) /\
  (~ In w (map fst str2fd_tab) -> fst (map_index fU (map_after fU str2fd_tab hist) w) = fU) /\
  (~ In w (map fst str2bl_tab) -> fst (map_index XMINUS (map_after XMINUS str2bl_tab hist) w) = XMINUS) /\
  (~ In w (map fst str2bt_tab) -> fst (map_index NOBC (map_after NOBC str2bt_tab hist) w) = NOBC) /\
  (~ In w (map fst str2pt_tab) -> fst (map_index POINT (map_after POINT str2pt_tab hist) w) = POINT).
Proof. intros hist w. rewrite !map_history. repeat split; intros H; now apply get_unknown. Qed.
Print Assumptions unknown_words_refuted.

(** What a misspelt word does: the entry is taken for the left boundary, for
    u, for the x direction, for "no boundary condition", for a point probe. *)
Theorem misspelt_location_refuted : forall rd w rest t, ~ In w (map fst str2bl_tab) ->
  parse_bc rd t (YMap (("location", YScalar w) :: rest)) = parse_bc rd t (YMap (("location", YScalar "xMinus") :: rest)).
Proof. exact location_misread. Qed.
Print Assumptions misspelt_location_refuted.

Theorem misspelt_field_refuted : forall rd loc w x t, ~ In w (map fst str2fd_tab) -> w <> "location" ->
  parse_bc_entry rd loc t (w, x) = parse_bc_entry rd loc t ("u", x).
Proof. exact field_misread. Qed.
Print Assumptions misspelt_field_refuted.

Theorem misspelt_bctype_refuted : forall rd loc w v fw t, ~ In w (map fst str2bt_tab) ->
  parse_bc_entry rd loc t (fw, YSeq [YScalar w; v]) = parse_bc_entry rd loc t (fw, YSeq [YScalar "NOBC"; v]).
Proof. exact type_misread. Qed.
Print Assumptions misspelt_bctype_refuted.

Theorem misspelt_direction_refuted : forall w a subs pre post, ~ In w (map fst str2dir_tab) ->
  parseMesh (pre ++ mkAxis w a subs :: post)%list grid0 = parseMesh (pre ++ mkAxis "x" a subs :: post)%list grid0.
Proof. exact direction_misread. Qed.
Print Assumptions misspelt_direction_refuted.

Theorem misspelt_probe_refuted : forall w l, ~ In w (map fst str2pt_tab) -> assoc l "type" = Some (YScalar w) ->
  createProbe_kind (Some (YMap l)) = Ok POINT.
Proof. exact probe_misread. Qed.
Print Assumptions misspelt_probe_refuted.

(** A boundary condition for a field other than u, v, w writes outside the
    tables. *)
Theorem pressure_bc_refuted : forall rd loc t w x, In w ["p"; "vertex"] -> (exists ty l, x = YSeq (YScalar ty :: l)) ->
  parse_bc_entry rd loc t (w, x) = UB.
Proof. exact no_pressure_bc. Qed.
Print Assumptions pressure_bc_refuted.

Example misspelt_case : ~ In "xPLus" (map fst str2bl_tab) /\ ~ In "periodic" (map fst str2bt_tab) /\ ~ In "X" (map fst str2dir_tab)
  /\ ~ In "U" (map fst str2fd_tab) /\ ~ In "volume" (map fst str2pt_tab).
Proof. cbn. repeat split; intuition discriminate. Qed.

(** * C45: factories *)

(** createMesh, createBoundary and createBodyPack never return a non-zero code:
    they succeed, or an exception leaves the constructor. *)
Theorem factories_never_report_refuted :
  (forall rd np y c, createMesh rd np y = Err c -> c = EXC) /\
  (forall rd m D r y c, createBoundary_factory rd m D r y = Err c -> c = EXC) /\
  (forall body open_body itos dim y c, createBodyPack body open_body itos dim y = Err c -> c = EXC).
Proof. repeat split; intros *; apply ctor_code. Qed.
Print Assumptions factories_never_report_refuted.

(** Initialisations that fail and are reported as success: no "flow" node;
    periodic conditions that do not match; a boundary without a condition; no
    "bodies" node. *)
Theorem mesh_without_flow_refuted : forall rd np st ays axs, assoc st "mesh" = Some (YSeq ays) ->
  Forall2 (describes_axis rd) ays axs -> (exists p, parseMesh axs grid0 = Ok p) -> assoc st "flow" = None ->
  mesh_init rd np (Some (YMap st)) = Err PETSC_ERR_ARG_OUTOFRANGE /\ createMesh rd np (Some (YMap st)) = Ok None.
Proof. exact mesh_factory_noflow. Qed.
Print Assumptions mesh_without_flow_refuted.

Theorem mesh_bad_periodic_refuted : forall rd np y p t dim,
  (exists st z, y = YMap st /\ assoc st "mesh" = Some z /\ parseMeshNode rd (Some z) = Ok p) ->
  parseBCs rd (Some y) = Ok t -> sim_dim_is (fst t) dim -> ~ bc_table_ok (fst t) dim ->
  mesh_init rd np (Some y) = Err PETSC_ERR_ARG_INCOMP /\ createMesh rd np (Some y) = Ok None.
Proof. exact mesh_factory_periodic. Qed.
Print Assumptions mesh_bad_periodic_refuted.

Theorem boundary_without_condition_refuted : forall rd m D r y t, mesh_setup m D -> (0 <= r < nranks D)%Z ->
  parseBCs rd y = Ok t ->
  (exists f loc, (0 <= f < m_dim m)%Z /\ (0 <= loc < m_dim m * 2)%Z /\ fst t f loc = NOBC) ->
  boundary_init rd m D r y = Err PETSC_ERR_ARG_WRONG /\ createBoundary_factory rd m D r y = Ok None.
Proof. exact boundary_factory_nobc. Qed.
Print Assumptions boundary_without_condition_refuted.

Theorem bodies_missing_refuted : forall body open_body itos dim st, assoc st "bodies" = None ->
  pack_init body open_body itos dim (Some (YMap st)) = Err PETSC_ERR_ARG_WRONG /\
  createBodyPack body open_body itos dim (Some (YMap st)) = Ok None.
Proof.
  intros body ob itos dim st E. assert (H : pack_init body ob itos dim (Some (YMap st)) = Err PETSC_ERR_ARG_WRONG).
  { unfold pack_init. cbn [yget bind]. now rewrite E. }
  split; [exact H|]. eapply ctor_hidden; [exact H|discriminate].
Qed.
Print Assumptions bodies_missing_refuted.

(** The factories that do report: a body type, a linear-solver type or a probe
    type without implementation gives a non-zero code. *)
Theorem factories_that_report :
  (forall body open_body dim type path, type <> "points" ->
     createSingleBody body open_body dim type path = Err PETSC_ERR_ARG_WRONG) /\
  (forall amgx load name st ps p1 ty, assoc st "parameters" = Some (YMap ps) ->
     assoc ps (name ++ "Solver") = Some (YMap p1) -> assoc p1 "type" = Some (YScalar ty) ->
     assoc p1 "config" = None -> ty <> "CPU" -> (ty = "GPU" -> amgx = false) ->
     createLinSolver amgx load name (Some (YMap st)) = Err PETSC_ERR_ARG_WRONG) /\
  (forall l w, assoc l "type" = Some (YScalar w) -> In w ["LINE"; "SURFACE"] ->
     createProbe_kind (Some (YMap l)) = Err PETSC_ERR_ARG_UNKNOWN_TYPE).
Proof.
  split; [|split].
  - intros body ob dim type path H. unfold createSingleBody. destruct (String.eqb_spec type "points"); [contradiction|reflexivity].
  - intros amgx load name st ps p1 ty E1 E2 E3 E4 Hc Hg. unfold createLinSolver. cbn [yget bind]. rewrite E1. cbn [yget bind].
    rewrite E2. cbn [yget bind]. rewrite E3, E4. cbn [as_string_or]. cbn [String.eqb Ascii.eqb Bool.eqb is_absolute negb andb bind].
    destruct (String.eqb_spec ty "CPU"); [contradiction|]. destruct (String.eqb_spec ty "GPU") as [->|]; [|reflexivity].
    now rewrite Hg.
  - intros l w E Hw. unfold createProbe_kind. cbn [yget bind]. rewrite E. cbn in Hw. destruct Hw as [<-|[<-|[]]]; reflexivity.
Qed.
Print Assumptions factories_that_report.

(** * A concrete configuration *)
Definition ex_reader : reader :=
  mkReader (fun s => if String.eqb s "0.0" then Some 0 else if String.eqb s "1.0" then Some 1
                     else if String.eqb s "4.0" then Some 4 else if String.eqb s "0.01" then Some (1 / 100) else None)
           (fun s => if String.eqb s "4" then Some 4%Z else if String.eqb s "3" then Some 3%Z
                     else if String.eqb s "0" then Some 0%Z else if String.eqb s "6" then Some 6%Z else None).
Definition ex_sub (e c : string) : yaml :=
  YMap [("end", YScalar e); ("cells", YScalar c); ("stretchRatio", YScalar "1.0")].
Definition ex_axis (d e c : string) : yaml :=
  YMap [("direction", YScalar d); ("start", YScalar "0.0"); ("subDomains", YSeq [ex_sub e c])].
Definition ex_bc (loc tu : string) : yaml :=
  YMap [("location", YScalar loc); ("u", YSeq [YScalar tu; YScalar "1.0"]); ("v", YSeq [YScalar tu; YScalar "0.0"])].
Definition ex_flow_of (outlet : string) : yaml :=
  YMap [("nu", YScalar "0.01"); ("initialVelocity", YSeq [YScalar "x*y"; YScalar "nu"]);
        ("boundaryConditions", YSeq [ex_bc "xMinus" "DIRICHLET"; ex_bc "xPlus" outlet;
                                     ex_bc "yMinus" "PERIODIC"; ex_bc "yPlus" "PERIODIC"])].
Definition ex_flow : yaml := ex_flow_of "CONVECTIVE".
Definition ex_yaml_of (outlet : string) : yaml := YMap [("mesh", YSeq [ex_axis "y" "1.0" "3"; ex_axis "x" "4.0" "4"]); ("flow", ex_flow_of outlet)].
Definition ex_yaml : yaml := ex_yaml_of "CONVECTIVE".
Definition ex_axs : list axis := [mkAxis "y" 0 [mkSub 1 3 1]; mkAxis "x" 0 [mkSub 4 4 1]].
Definition ex_bcs_of (outlet : bctype) : list (Z * Z * bctype * R) :=
  [(0, 0, DIRICHLET, 1%R); (1, 0, DIRICHLET, 0%R); (0, 1, outlet, 1%R); (1, 1, outlet, 0%R);
   (0, 2, PERIODIC, 1%R); (1, 2, PERIODIC, 0%R); (0, 3, PERIODIC, 1%R); (1, 3, PERIODIC, 0%R)]%Z.
Definition ex_bcs : list (Z * Z * bctype * R) := ex_bcs_of CONVECTIVE.
Definition ex_np (d : Z) : Z := if (d =? 0)%Z then 3%Z else 1%Z.
Definition ex_lambda (s : string) : option (R -> R -> R -> R -> R -> R) :=
  if String.eqb s "0" then Some (fun _ _ _ _ _ => 0) else if String.eqb s "x*y" then Some (fun x y _ _ _ => x * y)
  else if String.eqb s "nu" then Some (fun _ _ _ _ nu => nu) else None.

(** * C58: from a configuration to a simulation *)

(** Every configuration written as the manual says, for a process grid that is
    not finer than the mesh, gives a mesh that satisfies the hypotheses of the
    other theorems, with the cells and end points of the configuration, the
    table of boundary conditions of the configuration, and a boundary object on
    every rank. *)
Theorem configuration_builds_simulation : forall rd y axs bcs np,
  describes rd y axs bcs ->
  (lenZ axs = 2 \/ lenZ axs = 3)%Z -> Permutation (map ax_dir axs) (firstn (length axs) ["x"; "y"; "z"]) ->
  Forall axis_ok axs -> bcs_ok (lenZ axs) bcs ->
  (forall d, (0 <= d < 3)%Z -> (1 <= np d)%Z) -> (lenZ axs = 2%Z -> np 2%Z = 1%Z) ->
  (forall d n, axis_cells axs d n ->
     (np d <= n)%Z /\ ((forall v, ~ In (0%Z, (2 * d)%Z, PERIODIC, v) bcs) -> (np d < n)%Z)) ->
  exists m D types values,
    createMesh rd np (Some y) = Ok (Some (m, D)) /\ parseBCs rd (Some y) = Ok (types, values) /\
    mesh_setup m D /\ bc_fits m types /\ m_dim m = lenZ axs /\ (forall d, ds_np D d = np d) /\
    (forall f loc ty v, In (f, loc, ty, v) bcs -> types f loc = ty /\ values f loc = v) /\
    (forall ax d, In ax axs -> In (ax_dir ax, d) doc_directions -> built_axis m ax d) /\
    (forall r, (0 <= r < nranks D)%Z -> exists b,
       createBoundary_factory rd m D r (Some y) = Ok (Some b) /\ createBoundary m D r types values = Ok b).
Proof.
  intros rd y axs bcs np Hd H1 H2 H3 H4 H5 H6 H7.
  destruct (setup_lemma rd y axs bcs np Hd H1 H2 H3 H4 H5 H6 H7) as (m & D & E & S & Md & Fi & Np & Ax).
  exists m, D, (the_types bcs), (the_values bcs).
  pose proof (parseBCs_desc rd y axs bcs Hd) as Ep.
  split; [unfold createMesh; now rewrite E|]. split; [rewrite Ep; unfold the_types, the_values; now destruct (the_tables bcs)|].
  split; [exact S|]. split; [exact Fi|]. split; [exact Md|]. split; [exact Np|].
  split; [intros; eapply tables_In; eauto|]. split; [exact Ax|].
  intros r Hr. destruct (create_boundary_lemma m D r (the_types bcs) (the_values bcs) (setup_facts _ _ S) Hr) as (b & Eb & _).
  { intros f loc Hf Hl. now apply Fi. }
  exists b. split; [|exact Eb]. unfold createBoundary_factory, boundary_init. rewrite Ep. cbn [bind].
  fold (the_types bcs) (the_values bcs). rewrite Eb. reflexivity.
Qed.
Print Assumptions configuration_builds_simulation.

Lemma ex_describes_of to bo : In (to, bo) doc_bctypes -> describes ex_reader (ex_yaml_of to) ex_axs (ex_bcs_of bo).
Proof.
  intros Ho.
  assert (Hs : forall e c x n, to_real ex_reader e = Some x -> to_int ex_reader c = Some n ->
     describes_sub ex_reader (ex_sub e c) (mkSub x n 1)).
  { intros e c x n He Hc. unfold describes_sub, int_entry, real_entry, ex_sub. cbn [sd_cells sd_end sd_ratio].
    repeat split; (do 2 eexists; split; [reflexivity|]; split; [reflexivity|]; auto). }
  assert (Ha : forall d e c x n, to_real ex_reader e = Some x -> to_int ex_reader c = Some n ->
     describes_axis ex_reader (ex_axis d e c) (mkAxis d 0 [mkSub x n 1])).
  { intros d e c x n He Hc. unfold describes_axis, word_entry, real_entry, ex_axis. cbn [ax_dir ax_start ax_subs].
    split; [eexists; split; reflexivity|]. split; [do 2 eexists; split; [reflexivity|]; split; reflexivity|].
    do 2 eexists. split; [reflexivity|]. split; [reflexivity|]. repeat constructor; apply (Hs e c x n He Hc). }
  assert (Hb : forall lw loc tw ty, In (lw, loc) doc_locations -> In (tw, ty) doc_bctypes ->
     describes_boundary ex_reader (ex_bc lw tw) [(0%Z, loc, ty, 1); (1%Z, loc, ty, 0)]).
  { intros lw loc tw ty Hl Ht. exists lw, loc. eexists. split; [reflexivity|]. split; [exact Hl|].
    repeat constructor.
    - exists 0%Z, "u", tw, ty, "1.0", 1. repeat split; auto; cbn; try tauto; lia.
    - exists 1%Z, "v", tw, ty, "0.0", 0. repeat split; auto; cbn; try tauto; lia. }
  unfold describes. do 4 eexists.
  exists [[(0, 0, DIRICHLET, 1%R); (1, 0, DIRICHLET, 0%R)]; [(0, 1, bo, 1%R); (1, 1, bo, 0%R)];
          [(0, 2, PERIODIC, 1%R); (1, 2, PERIODIC, 0%R)]; [(0, 3, PERIODIC, 1%R); (1, 3, PERIODIC, 0%R)]]%Z.
  split; [reflexivity|]. split; [reflexivity|]. split; [repeat constructor; apply Ha; reflexivity|].
  split; [reflexivity|]. split; [reflexivity|]. split; [|reflexivity].
  repeat constructor; apply Hb; try exact Ho; cbn; tauto.
Qed.

Lemma configuration_case_of to bo : In (to, bo) doc_bctypes -> bo <> PERIODIC ->
  describes ex_reader (ex_yaml_of to) ex_axs (ex_bcs_of bo) /\
  Permutation (map ax_dir ex_axs) (firstn (length ex_axs) ["x"; "y"; "z"]) /\
  Forall axis_ok ex_axs /\ bcs_ok (lenZ ex_axs) (ex_bcs_of bo) /\
  (forall d n, axis_cells ex_axs d n ->
     (ex_np d <= n)%Z /\ ((forall v, ~ In (0%Z, (2 * d)%Z, PERIODIC, v) (ex_bcs_of bo)) -> (ex_np d < n)%Z)).
Proof.
  intros Ho Hp. split; [now apply ex_describes_of|]. split; [apply perm_swap|]. split; [|split].
  - repeat constructor; cbn; try discriminate; try lra; try lia.
  - split; [|split].
    + cbn. repeat constructor; cbn; intuition discriminate.
    + intros f loc. cbn. change (lenZ ex_axs) with 2%Z. split.
      * intros H. repeat (destruct H as [H|H]; [injection H as <- <-; lia|]). destruct H.
      * intros [Hf Hl]. assert (f = 0 \/ f = 1)%Z as [->| ->] by lia;
          assert (loc = 0 \/ loc = 1 \/ loc = 2 \/ loc = 3)%Z as [->|[->|[->| ->]]] by lia; tauto.
    + intros f g d s ty ty' v v' Hs H1 H2. unfold ex_bcs_of in H1, H2. cbn [In] in H1, H2.
      assert (Hd : d = 0%Z \/ d = 1%Z).
      { repeat (destruct H1 as [H1|H1]; [apply (f_equal (fun e => snd (fst (fst e)))) in H1; cbn [fst snd] in H1; lia|]). destruct H1. }
      destruct Hd as [->| ->]; change (2 * 0)%Z with 0%Z in *; change (2 * 1)%Z with 2%Z in *;
        destruct Hs as [-> | ->]; cbn [Z.add Pos.add] in H2; change (2 + 1)%Z with 3%Z in *;
        repeat (destruct H1 as [H1|H1]; [try discriminate; apply (f_equal (fun e => snd (fst e))) in H1; cbn [fst snd] in H1|]);
        try contradiction;
        repeat (destruct H2 as [H2|H2]; [try discriminate; apply (f_equal (fun e => snd (fst e))) in H2; cbn [fst snd] in H2|]);
        try contradiction; subst; split; congruence.
  - intros d n (ax & Hin & Hw & ->). destruct Hin as [<-|[<-|[]]]; cbn in Hw;
      repeat (destruct Hw as [Hw|Hw]; [try discriminate; injection Hw as <-; cbn; split; lia|]); destruct Hw.
Qed.

Example configuration_case :
  describes ex_reader ex_yaml ex_axs ex_bcs /\
  Permutation (map ax_dir ex_axs) (firstn (length ex_axs) ["x"; "y"; "z"]) /\
  Forall axis_ok ex_axs /\ bcs_ok (lenZ ex_axs) ex_bcs /\
  (forall d n, axis_cells ex_axs d n ->
     (ex_np d <= n)%Z /\ ((forall v, ~ In (0%Z, (2 * d)%Z, PERIODIC, v) ex_bcs) -> (ex_np d < n)%Z)).
Proof. apply configuration_case_of; [cbn; tauto|discriminate]. Qed.

(** * C53: initial conditions *)

(** Each component at its own points, the pressure at the cell centres; time 0
    and the viscosity are passed; in 2D z is 0. *)
Theorem initial_conditions : forall rd lambdify, lambdify "0" = Some (fun _ _ _ _ _ => 0) ->
  forall m D, mesh_setup m D -> forall y nu vel pe,
  describes_ics rd (fun w e => lambdify w = Some e) y nu vel pe -> (m_dim m <= lenZ vel <= 4)%Z ->
  exists s, setInitialConditions rd lambdify (Some y) m D = Ok s /\
    (forall id f i j k, nthZ (packed_layout (m_dim m) D) id = Some (f, (i, j, k)) ->
       exists e, nthZ vel f = Some e /\ UGlobal s id = e (xyz m f 0 i) (xyz m f 1 j) (xyz m f 2 k) 0 nu) /\
    (forall id i j k, nthZ (field_layout D 3) id = Some (i, j, k) ->
       pGlobal s id = pe (xyz m 3 0 i) (xyz m 3 1 j) (xyz m 3 2 k) 0 nu).
Proof.
  intros rd lam Hz m D Hs y nu vel pe Hd Hl. destruct (ics_lemma rd lam Hz m D Hs y nu vel pe Hd Hl) as (s & E & A & B).
  exists s. split; [exact E|]. split; [intros id f i j k H; exact (A id f (i, j, k) H)|intros id i j k H; exact (B id (i, j, k) H)].
Qed.
Print Assumptions initial_conditions.

(** With fewer expressions than components an uninitialised function is called. *)
Theorem initial_conditions_too_few_refuted : forall rd lambdify, lambdify "0" = Some (fun _ _ _ _ _ => 0) ->
  forall m D, mesh_setup m D -> forall y nu vel pe,
  describes_ics rd (fun w e => lambdify w = Some e) y nu vel pe -> (lenZ vel < m_dim m)%Z ->
  setInitialConditions rd lambdify (Some y) m D = UB.
Proof. exact ics_too_few. Qed.
Print Assumptions initial_conditions_too_few_refuted.

Theorem initial_conditions_need_viscosity : forall rd lambdify st fl m D,
  assoc st "flow" = Some (YMap fl) -> assoc fl "nu" = None ->
  setInitialConditions rd lambdify (Some (YMap st)) m D = Err PETSC_ERR_USER_INPUT.
Proof. exact ics_no_nu. Qed.
Print Assumptions initial_conditions_need_viscosity.

Lemma initial_conditions_case_of to :
  describes_ics ex_reader (fun w e => ex_lambda w = Some e) (ex_yaml_of to) (1 / 100)
    [(fun x y _ _ _ => x * y); (fun _ _ _ _ nu => nu)] (fun _ _ _ _ _ => 0) /\
  ex_lambda "0" = Some (fun _ _ _ _ _ => 0).
Proof.
  split; [|reflexivity]. do 2 eexists. exists ["x*y"; "nu"]. split; [reflexivity|]. split; [reflexivity|].
  split; [do 2 eexists; split; [reflexivity|]; split; reflexivity|]. split; [reflexivity|].
  split; [repeat constructor|]. right. split; reflexivity.
Qed.

Example initial_conditions_case :
  describes_ics ex_reader (fun w e => ex_lambda w = Some e) ex_yaml (1 / 100)
    [(fun x y _ _ _ => x * y); (fun _ _ _ _ nu => nu)] (fun _ _ _ _ _ => 0) /\
  ex_lambda "0" = Some (fun _ _ _ _ _ => 0).
Proof. apply initial_conditions_case_of. Qed.
