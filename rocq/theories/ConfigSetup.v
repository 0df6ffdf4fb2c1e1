(** Proofs: from the text of a configuration to the objects of a simulation. *)
From Coq Require Import Ascii String Permutation.
From Verif Require Import Prelude ZSum RSum TypesModel GridModel GridSpec GridProof MeshProof IndexModel IndexSpec IndexProof
  BoundaryModel BoundarySpec BoundaryProof OperatorModel OperatorSpec SolutionModel ConfigModel ConfigSpec ConfigProof.
Local Open Scope R_scope.
Local Open Scope string_scope.

Lemma mapM_Forall2 {A B} (f : A -> res B) l l' :
  Forall2 (fun x y => f x = Ok y) l l' -> mapM f l = Ok l'.
Proof.
  induction 1 as [|x y l l' H _ IH]; [reflexivity|]. cbn [mapM]. rewrite H. cbn [bind]. rewrite IH. reflexivity.
Qed.

Lemma Forall2_weaken {A B} (P Q : A -> B -> Prop) l l' :
  (forall x y, P x y -> Q x y) -> Forall2 P l l' -> Forall2 Q l l'.
Proof. intros H. induction 1; constructor; auto. Qed.

Section Rd.
Variable rd : reader.

Lemma int_entry_ok y k n : int_entry rd y k n -> exists z, yget (Some y) k = Ok z /\ as_int rd z = Ok n.
Proof.
  intros (l & s & -> & E & N). exists (Some (YScalar s)). cbn [yget]. rewrite E. split; [reflexivity|].
  unfold as_int. cbn [as_string bind]. now rewrite N.
Qed.
Lemma real_entry_ok y k x : real_entry rd y k x -> exists z, yget (Some y) k = Ok z /\ as_real rd z = Ok x.
Proof.
  intros (l & s & -> & E & N). exists (Some (YScalar s)). cbn [yget]. rewrite E. split; [reflexivity|].
  unfold as_real. cbn [as_string bind]. now rewrite N.
Qed.

Lemma read_sub_ok y s : describes_sub rd y s -> read_sub rd y = Ok s.
Proof.
  intros (H1 & H2 & H3). unfold read_sub.
  destruct (int_entry_ok _ _ _ H1) as (z1 & -> & E1). cbn [bind]. rewrite E1. cbn [bind].
  destruct (real_entry_ok _ _ _ H2) as (z2 & -> & E2). cbn [bind]. rewrite E2. cbn [bind].
  destruct (real_entry_ok _ _ _ H3) as (z3 & -> & E3). cbn [bind]. rewrite E3. cbn [bind].
  destruct s; reflexivity.
Qed.

Lemma read_axis_ok y ax : describes_axis rd y ax -> read_axis rd y = Ok ax.
Proof.
  intros ((l & -> & E1) & H2 & (l' & subs & E & E3 & F)). injection E as <-. unfold read_axis.
  destruct (real_entry_ok _ _ _ H2) as (z2 & Z2 & E2).
  cbn [yget]. rewrite E1. cbn [bind as_string]. cbn [yget] in Z2. injection Z2 as Z2. rewrite Z2, E2. cbn [bind].
  rewrite E3. cbn [bind yelems]. rewrite (mapM_Forall2 (read_sub rd) subs (ax_subs ax)).
  - cbn [bind]. destruct ax; reflexivity.
  - eapply Forall2_weaken; [|exact F]. exact read_sub_ok.
Qed.

(** ** Boundary conditions *)

Definition put (t : bctables) (e : Z * Z * bctype * R) : bctables :=
  let '(f, loc, ty, v) := e in (upd2 (fst t) f loc ty, upd2 (snd t) f loc v).
Definition bkey (e : Z * Z * bctype * R) : Z * Z := let '(f, loc, _, _) := e in (f, loc).

Lemma doc_loc_range lw loc : In (lw, loc) doc_locations -> (0 <= loc < 6)%Z /\ decode_bcloc lw = loc.
Proof. intros H. cbn in H. repeat (destruct H as [H|H]; [injection H as <- <-; split; [lia|reflexivity]|]). destruct H. Qed.

Lemma doc_field_range fw f : In (fw, f) doc_fields ->
  (0 <= f <= 3)%Z /\ decode_field fw = f /\ String.eqb fw "location" = false.
Proof. intros H. cbn in H. repeat (destruct H as [H|H]; [injection H as <- <-; split; [lia|split; reflexivity]|]). destruct H. Qed.

Lemma doc_type_ok tw ty : In (tw, ty) doc_bctypes -> decode_bctype tw = ty /\ ty <> NOBC.
Proof. intros H. cbn in H. repeat (destruct H as [H|H]; [injection H as <- <-; split; [reflexivity|discriminate]|]). destruct H. Qed.

Lemma bc_entry_ok loc kv e t : (0 <= loc < 6)%Z -> describes_bc rd loc kv e -> parse_bc_entry rd loc t kv = Ok (put t e).
Proof.
  intros Hl (f & fw & tw & ty & vs & v & -> & Hf & Hf3 & Ht & Hv & ->). unfold parse_bc_entry. cbn [fst snd].
  destruct (doc_field_range _ _ Hf) as (R & Ef & ->). rewrite Ef. destruct (doc_type_ok _ _ Ht) as [Et _].
  cbn [yidx]. change (nthZ [YScalar tw; YScalar vs] 0) with (Some (YScalar tw)).
  change (nthZ [YScalar tw; YScalar vs] 1) with (Some (YScalar vs)). cbn [bind as_string].
  replace ((0 <=? f) && (f <? 3) && (0 <=? loc) && (loc <? 6))%Z with true by lia.
  unfold as_real. cbn [as_string bind]. rewrite Hv. cbn [bind]. rewrite Et. reflexivity.
Qed.

Lemma bc_boundary_ok y es t : describes_boundary rd y es -> parse_bc rd t y = Ok (fold_left put es t).
Proof.
  intros (lw & loc & kvs & -> & Hl & F). destruct (doc_loc_range _ _ Hl) as [Hr El].
  unfold parse_bc. cbn [yget assoc String.eqb Ascii.eqb Bool.eqb]. cbn [bind as_string]. rewrite El.
  cbn [foldM]. unfold parse_bc_entry at 1. cbn [fst String.eqb Ascii.eqb Bool.eqb bind].
  clear Hl El. revert t. induction F as [|kv e kvs es H F IH]; intros t; [reflexivity|].
  cbn [foldM fold_left]. rewrite (bc_entry_ok _ _ _ _ Hr H). cbn [bind]. apply IH.
Qed.

Lemma bc_list_ok bys parts : Forall2 (describes_boundary rd) bys parts -> forall t,
  foldM (parse_bc rd) bys t = Ok (fold_left put (concat parts) t).
Proof.
  induction 1 as [|y es bys parts H F IH]; intros t; [reflexivity|]. cbn [foldM concat].
  rewrite (bc_boundary_ok _ _ _ H). cbn [bind]. rewrite fold_left_app. apply IH.
Qed.

Lemma bc_types_ok bys parts : Forall2 (describes_boundary rd) bys parts ->
  forall f loc ty v, In (f, loc, ty, v) (concat parts) -> ty <> NOBC /\ (0 <= f < 3)%Z /\ (0 <= loc < 6)%Z.
Proof.
  induction 1 as [|y es bys parts H F IH]; intros f loc ty v; cbn [concat]; [intros []|].
  rewrite in_app_iff. intros [Hi|Hi]; [|eauto]. clear IH F.
  destruct H as (lw & loc' & kvs & -> & Hl & F). destruct (doc_loc_range _ _ Hl) as [Hr _]. clear Hl.
  induction F as [|kv e kvs es H F IH]; [destruct Hi|]. destruct Hi as [->|Hi]; [|now apply IH].
  destruct H as (f' & fw & tw & ty' & vs & v' & -> & Hf & Hf3 & Ht & Hv & E). injection E as -> -> -> ->.
  destruct (doc_field_range _ _ Hf) as [? _]. destruct (doc_type_ok _ _ Ht) as [_ ?]. repeat split; auto; lia.
Qed.

Lemma put_other es : forall t f loc, ~ In (f, loc) (map bkey es) ->
  fst (fold_left put es t) f loc = fst t f loc /\ snd (fold_left put es t) f loc = snd t f loc.
Proof.
  induction es as [|[[[f' l'] ty] v] es IH]; intros t f loc H; [auto|]. cbn [fold_left map bkey In] in *.
  destruct (IH (put t (f', l', ty, v)) f loc ltac:(tauto)) as [-> ->]. cbn [put fst snd]. unfold upd2.
  destruct (Z.eqb_spec f f'); destruct (Z.eqb_spec loc l'); cbn [andb]; auto. subst. exfalso. apply H. now left.
Qed.

Lemma put_In es : NoDup (map bkey es) -> forall t f loc ty v, In (f, loc, ty, v) es ->
  fst (fold_left put es t) f loc = ty /\ snd (fold_left put es t) f loc = v.
Proof.
  induction es as [|[[[f' l'] ty'] v'] es IH]; intros N t f loc ty v; [intros []|]. cbn [fold_left map bkey] in *.
  inversion N as [|? ? Hni Hnd]; subst. intros [E|Hi].
  - injection E as -> -> -> ->. destruct (put_other es (put t (f, loc, ty, v)) f loc Hni) as [-> ->].
    cbn [put fst snd]. unfold upd2. rewrite !Z.eqb_refl. auto.
  - now apply IH.
Qed.

(** ** The whole configuration *)

Section Whole.
Variables (y : yaml) (axs : list axis) (bcs : list (Z * Z * bctype * R)) (np : Z -> Z).
Hypothesis Hd : describes rd y axs bcs.
Hypothesis Hdim : (lenZ axs = 2 \/ lenZ axs = 3)%Z.
Hypothesis Hdirs : Permutation (map ax_dir axs) (firstn (length axs) ["x"; "y"; "z"]).
Hypothesis Hax : Forall axis_ok axs.
Hypothesis Hbc : bcs_ok (lenZ axs) bcs.
Hypothesis Hnp : forall d, (0 <= d < 3)%Z -> (1 <= np d)%Z.
Hypothesis Hnp2 : lenZ axs = 2%Z -> np 2%Z = 1%Z.
Hypothesis Hfit : forall d n, axis_cells axs d n ->
  (np d <= n)%Z /\ ((forall v, ~ In (0%Z, (2 * d)%Z, PERIODIC, v) bcs) -> (np d < n)%Z).

Notation dim := (lenZ axs).

Definition the_tables : bctables := fold_left put bcs ((fun _ _ => NOBC), (fun _ _ => 0)).
Definition the_types := fst the_tables.
Definition the_values := snd the_tables.

Lemma parseBCs_desc : parseBCs rd (Some y) = Ok the_tables.
Proof.
  destruct Hd as (st & ays & fl & bys & parts & -> & _ & _ & E1 & E2 & F & E). unfold parseBCs.
  cbn [yget]. rewrite E1. cbn [bind yget]. rewrite E2. cbn [bind yelems].
  rewrite (bc_list_ok _ _ F). unfold the_tables. now rewrite E.
Qed.

Lemma entries_ok f loc ty v : In (f, loc, ty, v) bcs -> ty <> NOBC /\ (0 <= f < 3)%Z /\ (0 <= loc < 6)%Z.
Proof. destruct Hd as (st & ays & fl & bys & parts & -> & _ & _ & _ & _ & F & ->). now apply (bc_types_ok _ _ F). Qed.

Lemma tables_In f loc ty v : In (f, loc, ty, v) bcs -> the_types f loc = ty /\ the_values f loc = v.
Proof. destruct Hbc as (N & _ & _). apply put_In. exact N. Qed.

Lemma entry_ex f loc : (0 <= f < dim)%Z -> (0 <= loc < dim * 2)%Z -> exists ty v, In (f, loc, ty, v) bcs.
Proof.
  intros Hf Hl. destruct Hbc as (_ & H & _). destruct (H f loc) as [_ H']. specialize (H' (conj Hf Hl)).
  apply in_map_iff in H'. destruct H' as ([[[f' l'] ty] v] & E & Hi). injection E as -> ->. eauto.
Qed.

Lemma tables_out f loc : ~ ((0 <= f < dim)%Z /\ (0 <= loc < dim * 2)%Z) -> the_types f loc = NOBC.
Proof.
  intros H. unfold the_types, the_tables. destruct (put_other bcs ((fun _ _ => NOBC), (fun _ _ => 0)) f loc) as [-> _]; [|reflexivity].
  intros Hi. destruct Hbc as (_ & K & _). apply H. apply K. exact Hi.
Qed.

Lemma the_types_not_nobc f loc : (0 <= f < dim)%Z -> (0 <= loc < dim * 2)%Z -> the_types f loc <> NOBC.
Proof.
  intros Hf Hl. destruct (entry_ex f loc Hf Hl) as (ty & v & Hi). destruct (tables_In _ _ _ _ Hi) as [-> _].
  now apply (entries_ok _ _ _ _ Hi).
Qed.

Lemma types_periodic f g d s : (0 <= f < dim)%Z -> (0 <= g < dim)%Z -> (0 <= d < dim)%Z -> (s = 0 \/ s = 1)%Z ->
  (the_types f (2 * d) = PERIODIC <-> the_types g (2 * d + s)%Z = PERIODIC).
Proof.
  intros Hf Hg Hdd Hs. destruct (entry_ex f (2 * d)%Z Hf ltac:(lia)) as (ty & v & H1).
  destruct (entry_ex g (2 * d + s)%Z Hg ltac:(lia)) as (ty' & v' & H2).
  destruct (tables_In _ _ _ _ H1) as [-> _]. destruct (tables_In _ _ _ _ H2) as [-> _].
  destruct Hbc as (_ & _ & P). eapply P; eauto.
Qed.

Lemma the_sim_dim : sim_dim_is the_types dim.
Proof.
  destruct Hdim as [E|E]; rewrite E.
  - left. split; [reflexivity|]. intros l Hl. apply tables_out. lia.
  - right. split; [reflexivity|]. exists 0%Z. split; [lia|]. apply the_types_not_nobc; lia.
Qed.

Lemma the_table_ok : bc_table_ok the_types dim.
Proof.
  split.
  - intros f d Hf Hdd. destruct (Z_lt_dec f dim) as [H1|H1]; [destruct (Z_lt_dec d dim) as [H2|H2]|].
    + apply types_periodic; lia.
    + rewrite !tables_out by lia. tauto.
    + rewrite !tables_out by lia. tauto.
  - intros d Hdd. destruct (Z_lt_dec d dim) as [H2|H2].
    + destruct (bctype_eqb (the_types 0 (2 * d)) PERIODIC) eqn:E.
      * right. intros f Hf. apply <- (types_periodic f 0 d 0); try lia.
        replace (2 * d + 0)%Z with (2 * d)%Z by lia. destruct (the_types 0 (2 * d)); try discriminate. reflexivity.
      * left. intros f Hf C. destruct (Z_lt_dec f dim) as [H1|H1]; [|rewrite tables_out in C by lia; discriminate].
        apply (types_periodic f 0 d 0) in C; try lia. replace (2 * d + 0)%Z with (2 * d)%Z in C by lia.
        rewrite C in E. discriminate.
    + left. intros f Hf. rewrite tables_out by lia. discriminate.
Qed.

Lemma dirs_decoded : Permutation (map (fun ax => decode_dir (ax_dir ax)) axs) (zrange 0 dim).
Proof.
  replace (zrange 0 dim) with (map decode_dir (firstn (length axs) ["x"; "y"; "z"])).
  - rewrite <- (map_map ax_dir decode_dir). now apply Permutation_map.
  - unfold lenZ in *. destruct Hdim as [E|E].
    + replace (length axs) with 2%nat by lia. reflexivity.
    + replace (length axs) with 3%nat by lia. reflexivity.
Qed.

Lemma decode_documented ax d : In ax axs -> (decode_dir (ax_dir ax) = d <-> In (ax_dir ax, d) doc_directions).
Proof.
  intros Hi. assert (In (ax_dir ax) ["x"; "y"; "z"]) as Hw.
  { assert (In (ax_dir ax) (firstn (length axs) ["x"; "y"; "z"])) as Hw.
    { eapply Permutation_in; [exact Hdirs|]. now apply in_map. }
    revert Hw. destruct (length axs) as [|[|[|k]]]; cbn; rewrite ?firstn_nil; cbn; tauto. }
  cbn in Hw. destruct Hw as [<-|[<-|[<-|[]]]]; split; intros H; cbn in *;
    try (subst d; tauto); repeat (destruct H as [H|H]; [try discriminate; now injection H|]); destruct H.
Qed.

Lemma parse_node_desc : exists g, parseMeshNode rd (match y with YMap st => assoc st "mesh" | _ => None end) = Ok (dim, g) /\
  grid_ok dim (gmin g) (gmax g) (gdL g) /\ (forall ax, In ax axs -> holds_axis g ax).
Proof.
  destruct Hd as (st & ays & fl & bys & parts & -> & E1 & F & _). rewrite E1. cbn [parseMeshNode yelems bind].
  rewrite (mapM_Forall2 (read_axis rd) ays axs) by (eapply Forall2_weaken; [|exact F]; exact read_axis_ok).
  cbn [bind]. destruct (parsed_grid_ok axs Hax dirs_decoded Hdim) as (g & E & G).
  destruct (parse_mesh_ok axs Hax) as (g' & E' & _ & A & _).
  { eapply Permutation_NoDup; [symmetry; exact dirs_decoded|]. apply zrange_NoDup. }
  rewrite E in E'. injection E' as <-. eauto.
Qed.

Lemma setup_lemma : exists m D,
  mesh_init rd np (Some y) = Ok (m, D) /\ mesh_setup m D /\ m_dim m = dim /\ bc_fits m the_types /\
  (forall d, ds_np D d = np d) /\
  (forall ax d, In ax axs -> In (ax_dir ax, d) doc_directions -> built_axis m ax d).
Proof.
  destruct parse_node_desc as (g & Eg & Hg & Hh).
  destruct (periodic_check_accepts _ _ the_sim_dim the_table_ok) as (per & Eper & Pper).
  destruct (createMesh_total dim (gmin g) (gmax g) per (gdL g) Hg) as (m & Em).
  pose proof (createMesh_misc _ _ _ _ _ _ Em) as (Md & Mmn & Mmx & Mper).
  assert (Hcells : forall d, (0 <= d < dim)%Z -> exists ax, In ax axs /\ decode_dir (ax_dir ax) = d /\
            lenZ (gdL g d) = sumZ (map sd_cells (ax_subs ax))).
  { intros d Hdd. assert (Hi : In d (map (fun ax => decode_dir (ax_dir ax)) axs)).
    { eapply Permutation_in; [symmetry; exact dirs_decoded|]. now apply zrange_In. }
    apply in_map_iff in Hi. destruct Hi as (ax & Ed & Hin). exists ax. split; [exact Hin|]. split; [exact Ed|].
    destruct (Hh ax Hin) as (dL & _ & _ & _ & _ & B4 & B5 & _). rewrite <- Ed. unfold gdL. now rewrite B4. }
  assert (Hagree : forall f d, (0 <= f < dim)%Z -> (0 <= d < dim)%Z -> per f d = per 0%Z d).
  { intros f d Hf Hdd. pose proof (Pper f d ltac:(lia) ltac:(lia)) as P1. pose proof (Pper 0%Z d ltac:(lia) ltac:(lia)) as P2.
    pose proof (types_periodic f 0 d 0 Hf ltac:(lia) Hdd ltac:(now left)) as T.
    replace (2 * d + 0)%Z with (2 * d)%Z in T by lia.
    destruct (per f d), (per 0%Z d); auto; intuition congruence. }
  assert (ED : createDMDAs dim np (m_n m) = Ok (default_dec np (m_n m))).
  { unfold createDMDAs. match goal with |- context [forallb ?a ?b] => assert (Eb : forallb a b = true) end; [|now rewrite Eb].
    apply forallb_forall. intros f Hf. apply forallb_forall. intros d Hdd. apply zrange_In in Hdd.
    destruct (Hcells d Hdd) as (ax & Hin & Ed & El).
    destruct (Hfit d (lenZ (gdL g d))) as [F1 F2].
    { exists ax. split; [exact Hin|]. split; [|exact El]. now apply decode_documented. }
    destruct (mesh_pressure _ _ _ _ _ _ Em d Hdd) as (Np & _).
    destruct Hf as [<-|Hf]; [rewrite Np; lia|]. apply zrange_In in Hf.
    destruct (mesh_velocity _ _ _ _ _ _ Hg Em f d Hf Hdd) as (Nv & _). rewrite Nv. unfold vn, own_n.
    destruct (Z.eqb_spec f d) as [->|]; [|lia]. destruct (per d d) eqn:Ep; [lia|].
    assert (np d < lenZ (gdL g d))%Z; [|lia]. apply F2. intros v Hv. destruct (tables_In _ _ _ _ Hv) as [T _].
    assert (per 0%Z d = true) as C by (apply Pper; auto; lia). rewrite <- (Hagree d d Hf Hdd) in C. congruence. }
  exists m, (default_dec np (m_n m)).
  split; [|split; [|split; [exact Md|split; [|split]]]].
  - unfold mesh_init. pose proof Hd as (st & ays & fl & bys & parts & Ey & E1 & _). rewrite Ey in Eg |- *. cbn [yget bind].
    rewrite Eg. cbn [bind]. rewrite <- Ey, parseBCs_desc. cbn [bind]. fold the_types. rewrite Eper. cbn [bind].
    rewrite Em. cbn [bind]. replace ((dim =? 2) || (dim =? 3))%Z with true by lia. rewrite ED. reflexivity.
  - exists (gmin g), (gmax g), per, (gdL g), np. rewrite Md.
    exact (conj Hg (conj Em (conj Hagree (conj Hnp (conj Hnp2 ED))))).
  - intros f loc Hf Hl. rewrite Md in *. split; [now apply the_types_not_nobc|]. unfold periodic_dir, loc_dir. rewrite Mper.
    assert (Hld : (0 <= loc / 2 < dim)%Z).
    { split; [apply Z.div_pos; lia|]. apply Z.div_lt_upper_bound; lia. }
    rewrite (Pper 0%Z (loc / 2)%Z) by lia.
    assert (Eloc : loc = (2 * (loc / 2) + loc mod 2)%Z) by (apply Z.div_mod; lia).
    assert (Hm2 : (loc mod 2 = 0 \/ loc mod 2 = 1)%Z) by (pose proof (Z.mod_pos_bound loc 2); lia).
    rewrite Eloc at 1. symmetry. apply types_periodic; auto; lia.
  - reflexivity.
  - intros ax d Hin Hw. apply decode_documented in Hw; [|exact Hin].
    assert (Hdd : (0 <= d < dim)%Z).
    { apply zrange_In. eapply Permutation_in; [exact dirs_decoded|]. apply in_map_iff. eauto. }
    destruct (Hh ax Hin) as (dL & E0 & B1 & B2 & _ & B4 & B5 & _). rewrite Hw in B1, B2, B4.
    assert (Ew : gdL g d = dL) by (unfold gdL; now rewrite B4).
    destruct (mesh_pressure _ _ _ _ _ _ Em d Hdd) as (Np & _).
    destruct (vertex_statement _ _ _ _ _ _ Hg Em d Hdd) as (_ & V0 & V1 & VA & _). rewrite Ew in V1.
    rewrite <- Ew in B5. unfold built_axis. rewrite Np, Ew. rewrite Ew in B5, VA. split; [exact B5|]. rewrite V0, V1. unfold gmin, gmax in VA |- *. rewrite B1, B2 in *.
    split; [reflexivity|]. split; [reflexivity|]. pose proof Hax as Hax'. rewrite Forall_forall in Hax'. destruct (Hax' ax Hin) as [_ So].
    destruct (parse_subs_ok _ _ So) as (dL' & pieces & E1 & _ & _ & E2 & E3 & _). rewrite E0 in E1. injection E1 as <-.
    exists pieces. split; [exact E3|]. intros k Hk. rewrite <- E2. now apply VA.
Qed.
End Whole.
End Rd.
