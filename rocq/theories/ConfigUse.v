(** Proofs about misspelt words and the factories. *)
From Coq Require Import Ascii String Permutation.
From Verif Require Import Prelude ZSum RSum TypesModel GridModel GridSpec GridProof MeshProof IndexModel IndexSpec IndexProof
  BoundaryModel BoundarySpec BoundaryProof OperatorModel OperatorSpec OperatorProof SolutionModel
  ConfigModel ConfigSpec ConfigProof ConfigSetup ConfigInit.
Local Open Scope R_scope.
Local Open Scope string_scope.

Lemma doc_dirs_read w c : In (w, c) doc_directions -> map_get str2dir_tab dirX w = c.
Proof. intros H. cbn in H. repeat (destruct H as [H|H]; [injection H as <- <-; reflexivity|]). destruct H. Qed.
Lemma doc_fields_read w c : In (w, c) doc_fields -> map_get str2fd_tab fU w = c.
Proof. intros H. cbn in H. repeat (destruct H as [H|H]; [injection H as <- <-; reflexivity|]). destruct H. Qed.
Lemma doc_locs_read w c : In (w, c) doc_locations -> map_get str2bl_tab XMINUS w = c.
Proof. intros H. cbn in H. repeat (destruct H as [H|H]; [injection H as <- <-; reflexivity|]). destruct H. Qed.
Lemma doc_types_read w c : In (w, c) doc_bctypes -> map_get str2bt_tab NOBC w = c.
Proof. intros H. cbn in H. repeat (destruct H as [H|H]; [injection H as <- <-; reflexivity|]). destruct H. Qed.
Lemma doc_probes_read w c : In (w, c) doc_probetypes -> map_get str2pt_tab POINT w = c.
Proof. intros H. cbn in H. repeat (destruct H as [H|H]; [injection H as <- <-; reflexivity|]). destruct H. Qed.

Lemma location_misread rd w rest t : ~ In w (map fst str2bl_tab) ->
  parse_bc rd t (YMap (("location", YScalar w) :: rest)) = parse_bc rd t (YMap (("location", YScalar "xMinus") :: rest)).
Proof.
  intros H. unfold parse_bc. cbn [yget assoc String.eqb Ascii.eqb Bool.eqb]. cbn [bind as_string].
  unfold decode_bcloc. rewrite (get_unknown XMINUS _ w H). reflexivity.
Qed.

Lemma type_misread rd loc w v fw t : ~ In w (map fst str2bt_tab) ->
  parse_bc_entry rd loc t (fw, YSeq [YScalar w; v]) = parse_bc_entry rd loc t (fw, YSeq [YScalar "NOBC"; v]).
Proof.
  intros H. unfold parse_bc_entry. cbn [fst snd]. destruct (String.eqb fw "location"); [reflexivity|]. cbn [yidx].
  change (nthZ [YScalar w; v] 0) with (Some (YScalar w)). change (nthZ [YScalar "NOBC"; v] 0) with (Some (YScalar "NOBC")).
  change (nthZ [YScalar w; v] 1) with (Some v). change (nthZ [YScalar "NOBC"; v] 1) with (Some v).
  cbn [bind as_string]. unfold decode_bctype. rewrite (get_unknown NOBC _ w H). reflexivity.
Qed.

Lemma field_misread rd loc w x t : ~ In w (map fst str2fd_tab) -> w <> "location" ->
  parse_bc_entry rd loc t (w, x) = parse_bc_entry rd loc t ("u", x).
Proof.
  intros H Hw. unfold parse_bc_entry. cbn [fst snd]. destruct (String.eqb_spec w "location"); [congruence|].
  unfold decode_field. rewrite (get_unknown fU _ w H). reflexivity.
Qed.

Lemma direction_misread w a subs pre post : ~ In w (map fst str2dir_tab) ->
  parseMesh (pre ++ mkAxis w a subs :: post)%list grid0 = parseMesh (pre ++ mkAxis "x" a subs :: post)%list grid0.
Proof.
  intros H. unfold parseMesh.
  assert (L : lenZ (pre ++ mkAxis w a subs :: post)%list = lenZ (pre ++ mkAxis "x" a subs :: post)%list).
  { unfold lenZ. rewrite !app_length. reflexivity. }
  rewrite L. rewrite !foldM_app. destruct (foldM _ pre grid0); cbn [bind]; try reflexivity. cbn [foldM].
  unfold parseOneAxis. cbn [ax_dir ax_start ax_subs]. unfold decode_dir. rewrite (get_unknown dirX _ w H). reflexivity.
Qed.

Lemma probe_misread w l : ~ In w (map fst str2pt_tab) -> assoc l "type" = Some (YScalar w) ->
  createProbe_kind (Some (YMap l)) = Ok POINT.
Proof.
  intros H E. unfold createProbe_kind. cbn [yget bind]. rewrite E. cbn [as_string_or].
  unfold decode_probetype. now rewrite (get_unknown POINT _ w H).
Qed.

Lemma no_pressure_bc rd loc t w x : In w ["p"; "vertex"] -> (exists ty l, x = YSeq (YScalar ty :: l)) ->
  parse_bc_entry rd loc t (w, x) = UB.
Proof.
  intros Hw (ty & l & ->). cbn in Hw. destruct Hw as [<-|[<-|[]]]; unfold parse_bc_entry; cbn [fst snd];
    cbn [String.eqb Ascii.eqb Bool.eqb]; cbn [yidx]; change (nthZ (YScalar ty :: l) 0) with (Some (YScalar ty)); reflexivity.
Qed.

(** ** Factories *)

Lemma ctor_code {A} (x : res A) c : ctor x = Err c -> c = EXC.
Proof. destruct x as [a|c'|]; cbn [ctor]; try discriminate. destruct (c' =? EXC)%Z; intros H; [now injection H|discriminate]. Qed.

Lemma ctor_hidden {A} (x : res A) c : x = Err c -> c <> EXC -> ctor x = Ok None.
Proof. intros -> H. cbn. destruct (Z.eqb_spec c EXC); [contradiction|reflexivity]. Qed.

Lemma mapM_Err {A B} (f : A -> res B) l x c :
  (forall z, In z l -> (exists y, f z = Ok y) \/ f z = Err c) -> In x l -> f x = Err c -> mapM f l = Err c.
Proof.
  induction l as [|z t IH]; intros He Hi Hx; [destruct Hi|]. cbn [mapM].
  destruct (He z (or_introl eq_refl)) as [[y E]|E]; rewrite E; cbn [bind]; [|reflexivity].
  destruct Hi as [->|Hi]; [congruence|]. rewrite IH; auto. intros w Hw. apply He. now right.
Qed.

Lemma mapM_Ok_or_Err {A B} (f : A -> res B) l c :
  (forall z, In z l -> (exists y, f z = Ok y) \/ f z = Err c) -> (exists ys, mapM f l = Ok ys) \/ mapM f l = Err c.
Proof.
  induction l as [|z t IH]; intros He; [left; eexists; reflexivity|]. cbn [mapM].
  destruct (He z (or_introl eq_refl)) as [[y E]|E]; rewrite E; cbn [bind]; [|now right].
  destruct IH as [[ys ->]| ->]; [intros w Hw; apply He; now right| |now right]. left. eexists. reflexivity.
Qed.

Lemma boundary_nobc m D r types values : mesh_setup m D -> (0 <= r < nranks D)%Z ->
  (exists f loc, (0 <= f < m_dim m)%Z /\ (0 <= loc < m_dim m * 2)%Z /\ types f loc = NOBC) ->
  createBoundary m D r types values = Err PETSC_ERR_ARG_WRONG.
Proof.
  intros Hs Hr (f & loc & Hf & Hl & E). pose proof (setup_facts _ _ Hs) as F.
  assert (One : forall f loc, (0 <= f < m_dim m)%Z -> (0 <= loc < m_dim m * 2)%Z ->
    (exists sb, createSingleBoundary m D r loc f (values f loc) (types f loc) = Ok sb) \/
    createSingleBoundary m D r loc f (values f loc) (types f loc) = Err PETSC_ERR_ARG_WRONG).
  { intros f' loc' Hf' Hl'. destruct (types f' loc') eqn:E'; [now right| | | |]; left;
      try (eexists; reflexivity); (eexists; rewrite create_ok by (auto; unfold ghosted_type; tauto); reflexivity). }
  unfold createBoundary. apply (mapM_Err _ _ f); [| now apply zrange_In |].
  - intros g Hg. apply zrange_In in Hg. apply mapM_Ok_or_Err. intros b Hb. apply zrange_In in Hb. now apply One.
  - apply (mapM_Err _ _ loc); [| now apply zrange_In |].
    + intros b Hb. apply zrange_In in Hb. now apply One.
    + rewrite E. reflexivity.
Qed.

Lemma boundary_factory_nobc rd m D r y t : mesh_setup m D -> (0 <= r < nranks D)%Z ->
  parseBCs rd y = Ok t ->
  (exists f loc, (0 <= f < m_dim m)%Z /\ (0 <= loc < m_dim m * 2)%Z /\ fst t f loc = NOBC) ->
  boundary_init rd m D r y = Err PETSC_ERR_ARG_WRONG /\ createBoundary_factory rd m D r y = Ok None.
Proof.
  intros Hs Hr Hp He. assert (E : boundary_init rd m D r y = Err PETSC_ERR_ARG_WRONG).
  { unfold boundary_init. rewrite Hp. cbn [bind]. now apply boundary_nobc. }
  split; [exact E|]. unfold createBoundary_factory. eapply ctor_hidden; [exact E|discriminate].
Qed.

Lemma mesh_factory_noflow rd np st ays axs : assoc st "mesh" = Some (YSeq ays) ->
  Forall2 (describes_axis rd) ays axs -> (exists p, parseMesh axs grid0 = Ok p) -> assoc st "flow" = None ->
  mesh_init rd np (Some (YMap st)) = Err PETSC_ERR_ARG_OUTOFRANGE /\ createMesh rd np (Some (YMap st)) = Ok None.
Proof.
  intros E1 F (p & Ep) E2.
  assert (E : mesh_init rd np (Some (YMap st)) = Err PETSC_ERR_ARG_OUTOFRANGE).
  { unfold mesh_init. cbn [yget bind]. rewrite E1. cbn [parseMeshNode yelems bind].
    rewrite (mapM_Forall2 (read_axis rd) ays axs) by (eapply Forall2_weaken; [|exact F]; apply read_axis_ok).
    cbn [bind]. rewrite Ep. cbn [bind]. destruct p as [dim g]. unfold parseBCs. cbn [yget bind]. rewrite E2. reflexivity. }
  split; [exact E|]. eapply ctor_hidden; [exact E|discriminate].
Qed.

Lemma mesh_factory_periodic rd np y p t dim : (exists st z, y = YMap st /\ assoc st "mesh" = Some z /\ parseMeshNode rd (Some z) = Ok p) ->
  parseBCs rd (Some y) = Ok t -> sim_dim_is (fst t) dim -> ~ bc_table_ok (fst t) dim ->
  mesh_init rd np (Some y) = Err PETSC_ERR_ARG_INCOMP /\ createMesh rd np (Some y) = Ok None.
Proof.
  intros (st & z & -> & E1 & E2) Et Hd Hb.
  assert (E : mesh_init rd np (Some (YMap st)) = Err PETSC_ERR_ARG_INCOMP).
  { unfold mesh_init. cbn [yget bind]. rewrite E1, E2. cbn [bind]. destruct p as [d g]. rewrite Et. cbn [bind].
    rewrite (periodic_check_rejects _ _ Hd Hb). reflexivity. }
  split; [exact E|]. eapply ctor_hidden; [exact E|discriminate].
Qed.
