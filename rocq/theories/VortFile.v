(** Vorticity: the whole computation and the files. *)
From Coq Require Import String Permutation ZifyBool.
From Verif Require Import Prelude ZSum RSum TypesModel GridModel GridSpec GridProof MeshProof
  IndexModel IndexSpec IndexProof BoundaryModel BoundarySpec BoundaryProof OperatorModel OperatorSpec OperatorProof BStateProof GradProof
  MatModel AdjProof NSModel NSProof NameModel NameProof DriverModel DriverSpec DriverProof RestartProof ConvModel ConvSpec ConvProof ConvValue ConvTotal
  VortModel VortSpec VortProof GridFile.
Local Open Scope R_scope.

Definition vval m D types values hist x k r (p : pt) : R :=
  curl m (rval m D types values hist x r) (vort_dir (m_dim m) k) (moved m (vort_dir (m_dim m) k) p).
Definition vtagged (VD : dec) (k : Z) : list (Z * pt) := flat_map (fun r => map (fun p => (r, p)) (local_points VD k r)) (zrange 0 (nranks VD)).
Definition vlist m D types values hist x k : list R := map (fun rp => vval m D types values hist x k (fst rp) (snd rp)) (vtagged (vdec m D) k).

Lemma locals_shape m D r : (0 <= r < nranks D)%Z -> shape_ok m D r (new_locals m D r) /\
  forall f p id a, (0 <= f < m_dim m)%Z -> nthZ (ghosted_points (m_dim m) D f r) id = Some p -> nthZ (new_locals m D r) f = Some a ->
      known m D r f p = false -> nthZ a id = Some 0.
Proof.
  intros Hr. unfold new_locals. split.
  - intros f Hf. eexists. split; [rewrite nthZ_map, nthZ_zrange by lia; cbn [option_map]; reflexivity|]. replace (0 + f)%Z with f by lia. now rewrite lenZ_map.
  - intros f p id a Hf Hp Ha _. rewrite nthZ_map, nthZ_zrange in Ha by lia. cbn [option_map] in Ha. injection Ha as <-.
    replace (0 + f)%Z with f by lia. rewrite nthZ_map, Hp. reflexivity.
Qed.

Lemma calc_value m D types values hist B x : mesh_setup m D -> bc_fits m types -> boundary_after m D types values hist B ->
  calcVorticity m D (vdec m D) B x = Ok (map (vlist m D types values hist x) (zrange 0 (n_vort (m_dim m)))).
Proof.
  intros Hs Hb HB. pose proof (setup_facts _ _ Hs) as F. pose proof (setup_diag _ _ Hs) as Hdp. unfold calcVorticity.
  destruct (mapM_ex (fun r => fill m D B x r (new_locals m D r))
    (fun r q' => shape_ok m D r q' /\ forall f p id a, (0 <= f < m_dim m)%Z -> nthZ (ghosted_points (m_dim m) D f r) id = Some p -> nthZ q' f = Some a ->
      nthZ a id = Some (rval m D types values hist x r f p)) (zrange 0 (nranks D))) as (C' & E' & P').
  { intros r Hr. apply zrange_In in Hr. destruct (locals_shape m D r Hr) as [Sq Vq].
    destruct (fill_rval m D types values hist B x r _ F Hdp Hb Hr HB Sq Vq) as (q' & E & S' & V). exists q'. split; [exact E|auto]. }
  rewrite E'. cbn [bind]. apply mapM_ok. intros k Hk. apply zrange_In in Hk.
  rewrite (mapM_ok _ (fun r => map (vval m D types values hist x k r) (local_points (vdec m D) k r))).
  - cbn [bind]. f_equal. unfold vlist, vtagged. rewrite map_flat_map, flat_map_concat_map. f_equal. apply map_ext. intros r. now rewrite map_map.
  - intros r Hr. apply zrange_In in Hr.
    destruct (Forall2_nthZ _ _ _ r r P') as (q & Eq & Sq & Vq). { rewrite nthZ_zrange by lia. f_equal; lia. }
    unfold rd at 1. rewrite Eq. cbn [bind]. apply mapM_ok. intros p Hp.
    pose proof (local_interior _ _ k p r (vdec_ok m D k Hs Hk) Hr Hp) as Hin. apply (vort_point_interior m D k p Hs Hk) in Hin.
    pose proof (vkernel_value m D k p (flux_of m D r q) (rval m D types values hist x r) Hs Hk Hin) as V. destruct p as [[i j] l]. apply V.
    intros g i' j' k' Hx. destruct (vreads_in_box m D k r (i, j, l) g _ Hs Hk Hr Hp Hx) as [Hg Hb'].
    destruct (local_index_position m D g r (i', j', k') F (or_introl Hg) Hr Hb') as (id & E1 & E2).
    destruct (Sq g Hg) as (a & Ea & La). unfold flux_of, rd at 1. rewrite Ea. cbn [bind]. change (mkSt k' j' i' 0) with (st_of (i', j', k')). rewrite E1.
    cbn [bind]. unfold rd. now rewrite (Vq g _ id a Hg E2 Ea).
Qed.

(** * Datasets *)
Lemma vtagged_layout VD k : field_layout VD k = map snd (vtagged VD k).
Proof. unfold field_layout, vtagged. rewrite map_flat_map. apply flat_map_ext. intros r. rewrite map_map. cbn [snd]. symmetry. apply map_id. Qed.
Lemma vort_data_at m D types values hist x k p : mesh_setup m D -> ok_comp m k -> vort_point m (vort_dir (m_dim m) k) p ->
  exists r, (0 <= r < nranks D)%Z /\ In p (local_points (vdec m D) k r) /\
    nthZ (vort_data m (vdec m D) k (vlist m D types values hist x k)) (natural (vort_n m k) p) = Some (vval m D types values hist x k r p).
Proof.
  intros Hs Hk Hp. pose proof (vdec_ok m D k Hs Hk) as Hd. apply (vort_point_interior m D k p Hs Hk) in Hp.
  assert (Hpos : forall d, (0 <= d < 3)%Z -> (1 <= vort_n m k d)%Z).
  { intros d H3. pose proof (proj1 (interior_pc _ _) Hp d H3). lia. }
  pose proof (Hpos 0%Z ltac:(lia)). pose proof (Hpos 1%Z ltac:(lia)). pose proof (Hpos 2%Z ltac:(lia)).
  assert (Hnat : (0 <= natural (vort_n m k) p < npoints (vort_n m k))%Z) by (destruct p as [[i j] l]; now apply natural_range).
  unfold vort_data. rewrite nthZ_map, nthZ_zrange by (rewrite Z.sub_0_r; exact Hnat). cbn [option_map]. rewrite Z.add_0_l.
  assert (I2 : In (natural (vort_n m k) p) (petsc_order (vdec m D) (vort_n m k) k)).
  { rewrite petsc_order_map. apply in_map. now apply (field_layout_In _ (vort_n m k)). }
  destruct (findpos_In Z.eqb Z.eqb_eq _ _ 0%Z I2) as [pos Hpos']. rewrite Hpos'. apply (findpos_Some Z.eqb Z.eqb_eq) in Hpos'. destruct Hpos' as [_ Hpos'].
  rewrite Z.sub_0_r, petsc_order_map in Hpos'. apply map_nthZ_inv in Hpos'. destruct Hpos' as (q & Hq & E).
  pose proof (nthZ_In _ _ _ Hq) as Hin2. apply (field_layout_In _ (vort_n m k)) in Hin2; auto.
  apply natural_inj in E; auto. subst q. rewrite vtagged_layout in Hq. apply map_nthZ_inv in Hq. destruct Hq as ([r q] & Hq & E). cbn [snd] in E. subst q.
  exists r. pose proof (nthZ_In _ _ _ Hq) as Hin. unfold vtagged in Hin. apply in_flat_map in Hin. destruct Hin as (r' & Hr' & Hin).
  apply zrange_In in Hr'. apply in_map_iff in Hin. destruct Hin as (p' & E & Hin). injection E as -> ->.
  split; [exact Hr'|]. split; [exact Hin|]. unfold vlist. now rewrite nthZ_map, Hq.
Qed.
Lemma vort_data_len m D k w : mesh_setup m D -> ok_comp m k -> lenZ (vort_data m (vdec m D) k w) = npoints (vort_sizes m (vort_dir (m_dim m) k)).
Proof.
  intros Hs Hk. unfold vort_data. rewrite lenZ_map.
  assert (E : npoints (vort_n m k) = npoints (vort_sizes m (vort_dir (m_dim m) k))) by (unfold npoints; rewrite !(vort_n_sizes m D) by (auto; lia); reflexivity).
  rewrite E. rewrite zrange_lenZ; [lia|]. unfold npoints. pose proof (setup_facts _ _ Hs) as F.
  assert (forall d, (0 <= d < 3)%Z -> (1 <= vort_sizes m (vort_dir (m_dim m) k) d)%Z).
  { intros d Hd. pose proof (sizes_range m D (vort_dir (m_dim m) k) d Hs Hd). pose proof (sizes_pos m D 3 d F (or_intror eq_refl) Hd). lia. }
  pose proof (H 0%Z ltac:(lia)). pose proof (H 1%Z ltac:(lia)). pose proof (H 2%Z ltac:(lia)). nia.
Qed.
Lemma natural_sizes m D k p : mesh_setup m D -> ok_comp m k -> natural (vort_n m k) p = natural (vort_sizes m (vort_dir (m_dim m) k)) p.
Proof. intros Hs Hk. destruct p as [[i j] l]. unfold natural. rewrite !(vort_n_sizes m D) by (auto; lia). reflexivity. Qed.

Definition vsets m D types values hist x : list (string * list R) :=
  map (fun k => (vort_name (vort_dir (m_dim m) k), vort_data m (vdec m D) k (vlist m D types values hist x k))) (zrange 0 (n_vort (m_dim m))).
Lemma vort_write_eq m D types values hist x path : mesh_setup m D ->
  vort_write m (vdec m D) path (map (vlist m D types values hist x) (zrange 0 (n_vort (m_dim m)))) =
  [OpenApp path] ++ puts path (vsets m D types values hist x) ++ [Close path].
Proof.
  intros Hs. pose proof (mf_dim _ _ (setup_facts _ _ Hs)) as Hdim. unfold vort_write, puts, vsets, n_vort, vort_names, vort_dir.
  destruct Hdim as [E|E]; rewrite E; cbn [Z.eqb Pos.eqb]; reflexivity.
Qed.
Lemma vort_name_inj m k k' : (m_dim m = 2 \/ m_dim m = 3)%Z -> ok_comp m k -> ok_comp m k' ->
  vort_name (vort_dir (m_dim m) k) = vort_name (vort_dir (m_dim m) k') -> k = k'.
Proof.
  intros Hdim Hk Hk'. unfold ok_comp, n_vort, vort_dir in *. destruct Hdim as [E|E]; rewrite E in *; cbn [Z.eqb Pos.eqb] in *; [lia|].
  assert (k = 0 \/ k = 1 \/ k = 2)%Z as [->|[->| ->]] by lia; assert (k' = 0 \/ k' = 1 \/ k' = 2)%Z as [->|[->| ->]] by lia; cbn; intros; congruence || discriminate.
Qed.
Lemma vsets_NoDup m D types values hist x : mesh_setup m D -> NoDup (map fst (vsets m D types values hist x)).
Proof.
  intros Hs. pose proof (mf_dim _ _ (setup_facts _ _ Hs)) as Hdim. unfold vsets. rewrite map_map. cbn [fst].
  pose proof (zrange_NoDup 0 (n_vort (m_dim m))) as Hn. assert (HH : forall k, In k (zrange 0 (n_vort (m_dim m))) -> ok_comp m k) by (intros k Hk; now apply zrange_In in Hk).
  induction (zrange 0 (n_vort (m_dim m))) as [|a t IH]; [constructor|]. inversion Hn; subst. cbn [map]. constructor.
  - intros C. apply in_map_iff in C. destruct C as (b & E & Hb). apply (vort_name_inj m) in E; [|auto|apply HH; now right|apply HH; now left]. subst. contradiction.
  - apply IH; auto. intros; apply HH. now right.
Qed.

(** * One iteration *)
(** What the iteration stores for one component. *)
Definition vstored m D types values hist x k (p : pt) (v : R) : Prop :=
  exists r, (0 <= r < nranks D)%Z /\ In p (local_points (vdec m D) k r) /\ v = vval m D types values hist x k r p.
Lemma vort_write_file m D types values hist x path d F : mesh_setup m D -> d path = Some F ->
  exists F', run_ops (vort_write m (vdec m D) path (map (vlist m D types values hist x) (zrange 0 (n_vort (m_dim m))))) d path = Some F' /\
    (forall q, q <> path -> run_ops (vort_write m (vdec m D) path (map (vlist m D types values hist x) (zrange 0 (n_vort (m_dim m))))) d q = d q) /\
    only_vorticity m F F' /\
    forall k, ok_comp m k -> holds_vorticity m (vort_dir (m_dim m) k) (vstored m D types values hist x k) F'.
Proof.
  intros Hs HF. pose proof (mf_dim _ _ (setup_facts _ _ Hs)) as Hdim. rewrite vort_write_eq by auto. rewrite !run_app.
  set (d1 := run_ops [OpenApp path] d). assert (H1 : d1 path = Some F).
  { unfold d1. cbn. unfold dset, dget. rewrite String.eqb_refl, HF. reflexivity. }
  destruct (puts_file path (vsets m D types values hist x) d1 F H1) as (F' & E & Ht & Hx & Ho & Hi). exists F'.
  split; [cbn [run_ops fold_left apply_op]; exact E|]. split.
  { intros q Hq. rewrite <- run_app. unfold d1. rewrite <- run_app. apply run_other. intros o Hin. rewrite !in_app_iff in Hin.
    destruct Hin as [[<-|[]]|[Hin|[<-|[]]]]; cbn [op_path]; auto. unfold puts in Hin. apply in_map_iff in Hin. destruct Hin as (y & <- & _). cbn [op_path]. auto. }
  split.
  - split; [auto|]. split; [auto|]. intros nm Hnm. apply Ho. intros C. unfold vsets in C. rewrite map_map in C. cbn [fst] in C. apply in_map_iff in C.
    destruct C as (k & Ek & Hk). apply zrange_In in Hk. apply (Hnm k); auto.
  - intros k Hk. exists (vort_data m (vdec m D) k (vlist m D types values hist x k)). split.
    + apply Hi; [now apply vsets_NoDup|]. unfold vsets. apply in_map_iff. exists k. split; [reflexivity|]. now apply zrange_In.
    + split; [now apply vort_data_len|]. intros p Hp. destruct (vort_data_at m D types values hist x k p Hs Hk Hp) as (r & Hr & Hin & E').
      rewrite (natural_sizes m D k p Hs Hk) in E'. eexists. split; [exact E'|]. exists r. auto.
Qed.

Lemma read_ok m D path d F U q : mfacts m D -> d path = Some F -> readable m F ->
  exists U' p', solution_read m D path d U q = Ok (U', p') /\
    forall i f x, nthZ (packed_layout (m_dim m) D) i = Some (f, x) -> in_file m F f x (U' i).
Proof.
  intros HF E (Hv & lp & Ep & Lp). unfold solution_read.
  set (g := fun f => match f_sets F (set_name f) with Some l => l | None => [] end).
  rewrite (mapM_ok _ g).
  2:{ intros f Hf. apply zrange_In in Hf. destruct (Hv f Hf) as (l & El & Ll). unfold g. rewrite El. eapply load_ok; eauto. }
  cbn [bind]. rewrite (load_ok _ _ _ _ _ _ E Ep Lp). cbn [bind]. eexists. eexists. split; [reflexivity|].
  intros i f x Hi. destruct (layout_interior _ _ _ _ _ HF Hi) as [Hf Hx]. rewrite packed_order_map, nthZ_map, Hi. cbn [option_map fst snd].
  rewrite nthZ_map, nthZ_zrange by lia. cbn [option_map]. rewrite Z.add_0_l. destruct (Hv f Hf) as (l & El & Ll). unfold g. rewrite El.
  exists l. split; [exact El|]. pose proof (natural_in m D f x HF (or_introl Hf) Hx) as Hn. destruct (nthZ_in_range l (natural (m_n m f) x)) as [v Ev]; [lia|].
  now rewrite Ev.
Qed.

Lemma step_value m D types values hist B out t U q d F : mesh_setup m D -> bc_fits m types -> boundary_after m D types values hist B ->
  d (solution_path out t) = Some F -> readable m F ->
  exists U' p' B' d' F', vort_step m D (vdec m D) out (U, q, B, d) t = Ok (U', p', B', d') /\
    boundary_after m D types values (hist ++ [OpICs U']) B' /\
    (forall i f x, nthZ (packed_layout (m_dim m) D) i = Some (f, x) -> in_file m F f x (U' i)) /\
    d' (solution_path out t) = Some F' /\ (forall p, p <> solution_path out t -> d' p = d p) /\ only_vorticity m F F' /\
    forall k, ok_comp m k -> holds_vorticity m (vort_dir (m_dim m) k) (vstored m D types values (hist ++ [OpICs U']) U' k) F'.
Proof.
  intros Hs Hb HB HF Hrd. pose proof (setup_facts _ _ Hs) as Fa. unfold vort_step.
  destruct (read_ok m D _ d F U q Fa HF Hrd) as (U' & p' & -> & HU). cbn [bind].
  destruct (bc_call_after m D types values hist B (OpICs U') Fa Hb HB) as (B' & -> & HB'). cbn [bind].
  rewrite (calc_value m D types values _ B' U' Hs Hb HB'). cbn [bind].
  destruct (vort_write_file m D types values (hist ++ [OpICs U']) U' (solution_path out t) d F Hs HF) as (F' & E & Ho & Hov & Hh).
  exists U', p', B'. eexists. exists F'. split; [reflexivity|]. repeat (split; auto).
Qed.

(** * The whole run *)
Lemma only_readable m F F' : (m_dim m = 2 \/ m_dim m = 3)%Z -> only_vorticity m F F' -> readable m F -> readable m F'.
Proof.
  intros Hdim (_ & _ & H) (Hv & Hp). assert (X : forall nm, (nm = "/p"%string \/ exists f, (0 <= f < 3)%Z /\ nm = set_name f) -> f_sets F' nm = f_sets F nm).
  { intros nm Hnm. apply H. intros k Hk. unfold vort_dir, vort_name. destruct Hnm as [->|(f & Hf & ->)].
    - destruct (_ =? 0)%Z; [discriminate|]. destruct (_ =? 1)%Z; discriminate.
    - destruct (pt_cases f Hf) as [->|[->| ->]]; destruct (_ =? 0)%Z; try discriminate; destruct (_ =? 1)%Z; discriminate. }
  split.
  - intros f Hf. destruct (Hv f Hf) as (l & A & B). exists l. split; [|exact B]. rewrite X; auto. right. exists f. split; [lia|reflexivity].
  - destruct Hp as (l & A & B). exists l. split; [|exact B]. rewrite X; auto.
Qed.

(** What the program leaves in the file of one step. *)
Definition step_done m D types values (F F' : file) : Prop :=
  only_vorticity m F F' /\ exists hist U' B', boundary_after m D types values (hist ++ [OpICs U']) B' /\
    (forall i f x, nthZ (packed_layout (m_dim m) D) i = Some (f, x) -> in_file m F f x (U' i)) /\
    forall k, ok_comp m k -> holds_vorticity m (vort_dir (m_dim m) k) (vstored m D types values (hist ++ [OpICs U']) U' k) F'.
Lemma loop_value m D types values out : mesh_setup m D -> bc_fits m types ->
  forall ts hist U q B d, boundary_after m D types values hist B ->
  (forall t, In t ts -> (0 <= t)%Z) -> NoDup ts ->
  (forall t, In t ts -> exists F, d (solution_path out t) = Some F /\ readable m F) ->
  exists U' q' B' d', foldM (vort_step m D (vdec m D) out) ts (U, q, B, d) = Ok (U', q', B', d') /\
    (forall t F, In t ts -> d (solution_path out t) = Some F -> exists F', d' (solution_path out t) = Some F' /\ step_done m D types values F F') /\
    (forall p, (forall t, In t ts -> p <> solution_path out t) -> d' p = d p).
Proof.
  intros Hs Hb. induction ts as [|t ts IH]; intros hist U q B d HB Hpos Hnd Hrd.
  - exists U, q, B, d. split; [reflexivity|]. split; [intros t F []|reflexivity].
  - destruct (Hrd t (or_introl eq_refl)) as (F & HF & HR).
    destruct (step_value m D types values hist B out t U q d F Hs Hb HB HF HR) as (U1 & p1 & B1 & d1 & F1 & E & HB1 & HU & HF1 & Ho & Hov & Hh).
    inversion Hnd as [|x y Hni Hnd']; subst.
    assert (Hd : forall t', In t' ts -> d1 (solution_path out t') = d (solution_path out t')).
    { intros t' Ht'. apply Ho. intros C. apply solution_path_inj in C; [|apply Hpos; now right|apply Hpos; now left]. subst. contradiction. }
    destruct (IH (hist ++ [OpICs U1]) U1 p1 B1 d1 HB1) as (U' & q' & B' & d' & E' & H1 & H2); auto.
    { intros t' Ht'. apply Hpos. now right. }
    { intros t' Ht'. rewrite Hd by auto. apply Hrd. now right. }
    exists U', q', B', d'. split; [cbn [foldM]; rewrite E; cbn [bind]; exact E'|]. split.
    + intros t' G [<-|Ht'] HG.
      * assert (G = F) by congruence. subst G. exists F1. split.
        -- rewrite H2; [exact HF1|]. intros t' Ht' C. apply solution_path_inj in C; [|apply Hpos; now left|apply Hpos; now right]. subst. contradiction.
        -- split; [exact Hov|]. exists hist, U1, B1. auto.
      * apply H1; auto. now rewrite Hd.
    + intros p Hp. rewrite H2 by (intros; apply Hp; now right). apply Ho. apply Hp. now left.
Qed.
Lemma coords_total m D : mesh_setup m D -> exists cs, mapM (fun c => mapM (fun e => vort_coord m c e) (zrange 0 3)) (zrange 0 (n_vort (m_dim m))) = Ok cs.
Proof. intros Hs. rewrite (vcoords_ok m D Hs). eauto. Qed.
(** What the program does to the grid file. *)
Definition grid_done (m : mesh) (out : string) (d d' : disk) : Prop :=
  exists G, d' (grid_path out) = Some G /\ f_time G = f_time (dget d (grid_path out)) /\ f_text G = f_text (dget d (grid_path out)) /\
    (forall nm, ~ is_vort_coord m nm -> f_sets G nm = f_sets (dget d (grid_path out)) nm) /\
    forall k, ok_comp m k -> holds_coords (vort_group (vort_dir (m_dim m) k)) (vort_sizes m (vort_dir (m_dim m) k)) (vort_crd m (vort_dir (m_dim m) k)) G.
Lemma main_value m D types values out fuel bg ed step d : mesh_setup m D -> bc_fits m types -> (0 <= bg)%Z -> (0 < step)%Z -> (ed - bg < Z.of_nat fuel)%Z ->
  (forall k, (0 <= k)%Z -> (bg + k * step <= ed)%Z -> exists F, d (solution_path out (bg + k * step)) = Some F /\ readable m F) ->
  exists d', vort_main fuel m D types values out bg ed step d = Ok (Some d') /\
    (forall k F, (0 <= k)%Z -> (bg + k * step <= ed)%Z -> d (solution_path out (bg + k * step)) = Some F ->
       exists F', d' (solution_path out (bg + k * step)) = Some F' /\ step_done m D types values F F') /\
    (forall p, p <> grid_path out -> (forall k, (0 <= k)%Z -> (bg + k * step <= ed)%Z -> p <> solution_path out (bg + k * step)) -> d' p = d p) /\
    grid_done m out d d'.
Proof.
  intros Hs Hb Hbg Hst Hfu Hrd. pose proof (setup_facts _ _ Hs) as F. unfold vort_main.
  destruct (mapM_ex (fun r => createBoundary m D r types values) (fun _ _ => True) (zrange 0 (nranks D))) as (bl & Ebl & _).
  { intros r Hr. apply zrange_In in Hr. destruct (create_boundary_lemma m D r types values F Hr (fun f loc A C => proj1 (Hb f loc A C))) as (b & Eb & _). eauto. }
  rewrite Ebl. cbn [bind]. rewrite vort_dmdas_ok by auto. cbn [bind]. rewrite (vcoords_ok m D Hs). cbn [bind].
  destruct (xdmf_terminates fuel bg ed step Hst Hfu) as (ts & Ets). rewrite Ets. destruct (xdmf_ends fuel bg ed step ts Hst Ets) as [Iff Nd].
  fold (vdec m D). set (cs := map _ (zrange 0 (n_vort (m_dim m)))). set (dg := run_ops (vort_grid m (grid_path out) cs) d).
  assert (Hdg : forall p, p <> grid_path out -> dg p = d p).
  { intros p Hp. unfold dg. apply run_other. intros o Ho. rewrite (vort_grid_paths _ _ _ _ Ho). auto. }
  destruct (loop_value m D types values out Hs Hb ts [] (fun _ => 0) (fun _ => 0) _ dg (create_after m D types values bl F Hb Ebl)) as (U' & q' & B' & d' & E & H1 & H2).
  { intros t Ht. apply Iff in Ht; destruct Ht as (Hle & k & Ek); assert (Hk : (0 <= k)%Z) by nia; lia. }
  { exact Nd. }
  { intros t Ht. apply Iff in Ht; destruct Ht as (Hle & k & Ek); assert (Hk : (0 <= k)%Z) by nia; replace t with (bg + k * step)%Z in * by lia.
    rewrite Hdg by (intros C; symmetry in C; revert C; apply grid_not_solution; nia). apply Hrd; lia. }
  exists d'. match type of E with ?l = _ => match goal with |- context [foldM ?f ts ?s] => change (foldM f ts s) with l end end. rewrite E. cbn [bind]. split; [reflexivity|]. split.
  - intros k G Hk Hle HG. apply H1; auto; [apply Iff; split; [nia|]; exists k; lia|]. rewrite Hdg by (intros C; symmetry in C; revert C; apply grid_not_solution; nia). exact HG.
  - split.
    + intros p Hg Hp. rewrite H2; [now apply Hdg|]. intros t Ht. apply Iff in Ht; destruct Ht as (Hle & k & Ek); assert (Hk : (0 <= k)%Z) by nia; replace t with (bg + k * step)%Z in * by lia. apply Hp; lia.
    + destruct (vort_grid_file m D (grid_path out) d Hs) as (G & EG & R). exists G. split; [|exact R]. rewrite H2; [exact EG|].
      intros t Ht. apply Iff in Ht; destruct Ht as (Hle & k & Ek); assert (Hk : (0 <= k)%Z) by nia. apply grid_not_solution. nia.
Qed.
