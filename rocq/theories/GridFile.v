(** The grid file. *)
From Coq Require Import String ZifyBool.
From Verif Require Import Prelude ZSum RSum TypesModel GridModel GridSpec GridProof MeshProof
  IndexModel IndexSpec IndexProof BoundaryModel BoundarySpec BoundaryProof OperatorModel OperatorSpec MatModel NSModel NameModel
  DriverModel DriverSpec DriverProof RestartProof VortModel VortSpec VortProof.
Local Open Scope R_scope.

(** * Operations on one file *)
Definition fget (F : option file) : file := match F with Some F => F | None => empty_file end.
Definition fop (F : option file) (o : fsop) : option file :=
  match o with
  | OpenNew _ => Some empty_file
  | OpenApp _ => Some (fget F)
  | Put _ name data => Some (mkFile (fun q => if String.eqb name q then Some data else f_sets (fget F) q) (f_time (fget F)) (f_text (fget F)))
  | PutTime _ t => Some (mkFile (f_sets (fget F)) (Some t) (f_text (fget F)))
  | PutText _ n => Some (mkFile (f_sets (fget F)) (f_time (fget F)) (f_text (fget F) ++ [n]))
  | Close _ => F
  end.
Lemma run_one ops d p : (forall o, In o ops -> op_path o = p) -> run_ops ops d p = fold_left fop ops (d p).
Proof.
  revert d. induction ops as [|o t IH]; intros d H; [reflexivity|]. cbn [run_ops fold_left].
  change (fold_left apply_op t (apply_op d o)) with (run_ops t (apply_op d o)). rewrite IH by (intros; apply H; now right). f_equal.
  pose proof (H o (or_introl eq_refl)) as E. destruct o; cbn [op_path] in E; subst; cbn [apply_op fop]; unfold dset, dget, fget; rewrite ?String.eqb_refl; reflexivity.
Qed.

(** * Coordinates of every field *)
Lemma coord_any m D f d i : mesh_setup m D -> (0 <= f < 5)%Z -> (0 <= d < 3)%Z -> (0 <= i < m_n m f d)%Z -> m_coord m f d i = Ok (crd m f d i).
Proof.
  intros Hs Hf Hd Hi. pose proof (setup_facts _ _ Hs) as F. pose proof (mf_dim _ _ F) as Hdim.
  assert (Hdef : m_fd m f d = fdir_default -> m_coord m f d i = Ok (crd m f d i)).
  { intros E. unfold crd, m_coord, m_n in *. rewrite E in *. cbn [fd_n fdir_default] in Hi. assert (i = 0)%Z by lia. subst i. reflexivity. }
  destruct (Z.ltb_spec d (m_dim m)) as [Hlt|Hge].
  - destruct (Z.ltb_spec f (m_dim m)); [apply (mf_coord _ _ F); lia|].
    assert (f = 3 \/ f = 4 \/ (f = 2 /\ m_dim m = 2))%Z as [->|[->|[-> E2]]] by lia.
    + apply (mf_pcoord _ _ F); lia.
    + destruct (vertex_facts m D Hs d ltac:(lia)) as [N C]. apply C. lia.
    + apply Hdef. destruct Hs as (mn & mx & per & w & np & Hg & Hm & _). rewrite (createMesh_fd _ _ _ _ _ _ 2 d Hm). unfold mesh_fd. rewrite E2 in *.
      destruct (d <? 2)%Z; reflexivity.
  - apply Hdef. destruct Hs as (mn & mx & per & w & np & Hg & Hm & _). rewrite (createMesh_fd _ _ _ _ _ _ f d Hm). unfold mesh_fd.
    destruct (Z.ltb_spec d (m_dim m)); [lia|]. reflexivity.
Qed.
Definition coords (m : mesh) (f d : Z) : list R := map (fun i => crd m f d i) (zrange 0 (m_n m f d)).
Lemma coords_ok m D f d : mesh_setup m D -> (0 <= f < 5)%Z -> (0 <= d < 3)%Z -> grid_coords m f d = Ok (coords m f d).
Proof. intros Hs Hf Hd. unfold grid_coords, coords. apply mapM_ok. intros i Hi. apply zrange_In in Hi. now apply (coord_any m D). Qed.
Lemma size_pos m D f d : mesh_setup m D -> (0 <= f < 5)%Z -> (0 <= d < 3)%Z -> (0 <= m_n m f d)%Z.
Proof.
  intros Hs Hf Hd. pose proof (setup_facts _ _ Hs) as F. pose proof (mf_dim _ _ F) as Hdim.
  assert (Hdef : m_fd m f d = fdir_default -> (0 <= m_n m f d)%Z) by (intros E; unfold m_n; rewrite E; cbn; lia).
  destruct (Z.ltb_spec d (m_dim m)) as [Hlt|Hge].
  - destruct (Z.ltb_spec f (m_dim m)); [pose proof (mf_np _ _ F f d ltac:(lia) ltac:(lia)); lia|].
    assert (f = 3 \/ f = 4 \/ (f = 2 /\ m_dim m = 2))%Z as [->|[->|[-> E2]]] by lia.
    + pose proof (mf_np _ _ F 3%Z d ltac:(lia) ltac:(lia)); lia.
    + destruct (vertex_facts m D Hs d ltac:(lia)) as [-> _]. pose proof (mf_np _ _ F 3%Z d ltac:(lia) ltac:(lia)); lia.
    + apply Hdef. destruct Hs as (mn & mx & per & w & np & Hg & Hm & _). rewrite (createMesh_fd _ _ _ _ _ _ 2 d Hm). unfold mesh_fd. rewrite E2 in *.
      destruct (d <? 2)%Z; reflexivity.
  - apply Hdef. destruct Hs as (mn & mx & per & w & np & Hg & Hm & _). rewrite (createMesh_fd _ _ _ _ _ _ f d Hm). unfold mesh_fd.
    destruct (Z.ltb_spec d (m_dim m)); [lia|]. reflexivity.
Qed.
Lemma coords_len m D f d : mesh_setup m D -> (0 <= f < 5)%Z -> (0 <= d < 3)%Z -> lenZ (coords m f d) = m_n m f d.
Proof. intros Hs Hf Hd. unfold coords. rewrite lenZ_map. pose proof (size_pos m D f d Hs Hf Hd). rewrite zrange_lenZ by lia. lia. Qed.
Lemma coords_at m f d i : (0 <= i < m_n m f d)%Z -> nthZ (coords m f d) i = Some (crd m f d i).
Proof. intros Hi. unfold coords. rewrite nthZ_map, nthZ_zrange by lia. reflexivity. Qed.

Definition field_ops (m : mesh) (path : string) (f : Z) : list fsop :=
  [if (f =? 0)%Z then OpenNew path else OpenApp path] ++ map (fun d => Put path (coord_name (fd2str f) d) (coords m f d)) (zrange 0 3) ++ [Close path].
Lemma mesh_write_ok m D path : mesh_setup m D -> mesh_write m path = Ok (concat (map (field_ops m path) (zrange 0 5))).
Proof.
  intros Hs. unfold mesh_write. rewrite (mapM_ok _ (field_ops m path)); [reflexivity|]. intros f Hf. apply zrange_In in Hf.
  rewrite (mapM_ok _ (fun d => Put path (coord_name (fd2str f) d) (coords m f d))); [reflexivity|].
  intros d Hd. apply zrange_In in Hd. now rewrite (coords_ok m D).
Qed.
Lemma z5 f : (0 <= f < 5)%Z -> (f = 0 \/ f = 1 \/ f = 2 \/ f = 3 \/ f = 4)%Z.
Proof. lia. Qed.
Lemma mesh_file m D path d0 : mesh_setup m D -> exists ops G, mesh_write m path = Ok ops /\ run_ops ops d0 path = Some G /\
  (forall f, (0 <= f < 5)%Z -> holds_coords (fd2str f) (m_n m f) (crd m f) G) /\
  (forall nm, (forall f e, (0 <= f < 5)%Z -> (0 <= e < 3)%Z -> nm <> ("/" ++ fd2str f ++ "/" ++ axis_name e)%string) -> f_sets G nm = None).
Proof.
  intros Hs. eexists. eexists. split; [exact (mesh_write_ok m D path Hs)|]. split; [|split].
  - rewrite run_one.
    + change (zrange 0 5) with [0; 1; 2; 3; 4]%Z. unfold field_ops. change (zrange 0 3) with [0; 1; 2]%Z. cbn [map app concat fold_left fop Z.eqb Pos.eqb fget f_sets f_time f_text empty_file]. reflexivity.
    + intros o Ho. eapply mesh_write_paths; [apply (mesh_write_ok m D path Hs)|exact Ho].
  - intros f Hf d Hd. exists (coords m f d). split; [|split; [now apply (coords_len m D)|intros i Hi; now apply coords_at]].
    destruct (z5 f Hf) as [->|[->|[->|[->| ->]]]]; destruct (pt_cases d Hd) as [->|[->| ->]]; vm_compute; reflexivity.
  - intros nm Hnm. cbn [f_sets]. repeat (match goal with |- context [String.eqb ?a nm] => destruct (String.eqb_spec a nm) as [E|_]; [exfalso; symmetry in E; revert E|] end); [..|reflexivity].
    + exact (Hnm 4 2 ltac:(lia) ltac:(lia))%Z.
    + exact (Hnm 4 1 ltac:(lia) ltac:(lia))%Z.
    + exact (Hnm 4 0 ltac:(lia) ltac:(lia))%Z.
    + exact (Hnm 3 2 ltac:(lia) ltac:(lia))%Z.
    + exact (Hnm 3 1 ltac:(lia) ltac:(lia))%Z.
    + exact (Hnm 3 0 ltac:(lia) ltac:(lia))%Z.
    + exact (Hnm 2 2 ltac:(lia) ltac:(lia))%Z.
    + exact (Hnm 2 1 ltac:(lia) ltac:(lia))%Z.
    + exact (Hnm 2 0 ltac:(lia) ltac:(lia))%Z.
    + exact (Hnm 1 2 ltac:(lia) ltac:(lia))%Z.
    + exact (Hnm 1 1 ltac:(lia) ltac:(lia))%Z.
    + exact (Hnm 1 0 ltac:(lia) ltac:(lia))%Z.
    + exact (Hnm 0 2 ltac:(lia) ltac:(lia))%Z.
    + exact (Hnm 0 1 ltac:(lia) ltac:(lia))%Z.
    + exact (Hnm 0 0 ltac:(lia) ltac:(lia))%Z.
Qed.

(** * The coordinates of the vorticity *)
Definition vcoords (m : mesh) (c e : Z) : list R := coords m (vort_src (m_dim m) c e) e.
Lemma vort_src_range dim c e : (0 <= vort_src dim c e < 5)%Z.
Proof. unfold vort_src. repeat (match goal with |- context [if ?b then _ else _] => destruct b end); lia. Qed.
Lemma vcoords_ok m D : mesh_setup m D ->
  mapM (fun c => mapM (fun e => vort_coord m c e) (zrange 0 3)) (zrange 0 (n_vort (m_dim m))) =
  Ok (map (fun c => map (vcoords m c) (zrange 0 3)) (zrange 0 (n_vort (m_dim m)))).
Proof.
  intros Hs. apply mapM_ok. intros c Hc. apply mapM_ok. intros e He. apply zrange_In in He. exact (coords_ok m D _ e Hs (vort_src_range _ _ _) He).
Qed.
Lemma vort_src_dir dim k d : (dim = 2 \/ dim = 3)%Z -> (0 <= k < n_vort dim)%Z -> (0 <= d < 3)%Z ->
  vort_src dim k d = if (d =? vort_dir dim k)%Z then 3%Z else 4%Z.
Proof.
  intros Hdim Hk Hd. unfold n_vort, vort_src, vort_dir in *. destruct Hdim as [-> | ->]; cbn [Z.eqb Pos.eqb] in *.
  - destruct (pt_cases d Hd) as [->|[->| ->]]; reflexivity.
  - destruct (pt_cases k Hk) as [->|[->| ->]]; destruct (pt_cases d Hd) as [->|[->| ->]]; reflexivity.
Qed.
Definition is_vort_coord (m : mesh) (nm : string) : Prop :=
  exists k d, ok_comp m k /\ (0 <= d < 3)%Z /\ nm = ("/" ++ vort_group (vort_dir (m_dim m) k) ++ "/" ++ axis_name d)%string.
Lemma vort_grid_paths m path cs o : In o (vort_grid m path cs) -> op_path o = path.
Proof.
  unfold vort_grid. intros Ho. apply in_flat_map in Ho. destruct Ho as (nc & _ & Ho). rewrite !in_app_iff in Ho. destruct Ho as [[<-|[]]|[Ho|[<-|[]]]]; try reflexivity.
  apply in_map_iff in Ho. destruct Ho as (dc & <- & _). reflexivity.
Qed.
Lemma vort_grid_file m D path d0 : mesh_setup m D ->
  let ops := vort_grid m path (map (fun c => map (vcoords m c) (zrange 0 3)) (zrange 0 (n_vort (m_dim m)))) in
  exists G, run_ops ops d0 path = Some G /\ f_time G = f_time (dget d0 path) /\ f_text G = f_text (dget d0 path) /\
    (forall nm, ~ is_vort_coord m nm -> f_sets G nm = f_sets (dget d0 path) nm) /\
    forall k, ok_comp m k -> holds_coords (vort_group (vort_dir (m_dim m) k)) (vort_sizes m (vort_dir (m_dim m) k)) (vort_crd m (vort_dir (m_dim m) k)) G.
Proof.
  intros Hs ops. pose proof (mf_dim _ _ (setup_facts _ _ Hs)) as Hdim.
  assert (HL : forall k d, ok_comp m k -> (0 <= d < 3)%Z -> lenZ (vcoords m k d) = vort_sizes m (vort_dir (m_dim m) k) d /\
    forall i, (0 <= i < vort_sizes m (vort_dir (m_dim m) k) d)%Z -> nthZ (vcoords m k d) i = Some (vort_crd m (vort_dir (m_dim m) k) d i)).
  { intros k d Hk Hd. unfold vcoords. rewrite (coords_len m D) by (auto using vort_src_range). pose proof (vort_n_sizes m D k d Hs Hk Hd) as E. unfold vort_n in E. split; [exact E|].
    intros i Hi. rewrite <- E in Hi. rewrite coords_at by exact Hi. f_equal. unfold vort_crd. rewrite (vort_src_dir _ k d Hdim Hk Hd). destruct (d =? _)%Z; reflexivity. }
  assert (EX : exists G, run_ops ops d0 path = Some G /\ f_time G = f_time (dget d0 path) /\ f_text G = f_text (dget d0 path) /\
    (forall nm, ~ is_vort_coord m nm -> f_sets G nm = f_sets (dget d0 path) nm) /\
    forall k d, ok_comp m k -> (0 <= d < 3)%Z -> f_sets G ("/" ++ vort_group (vort_dir (m_dim m) k) ++ "/" ++ axis_name d)%string = Some (vcoords m k d)).
  { rewrite run_one by (intros o Ho; eapply vort_grid_paths; exact Ho). change (dget d0 path) with (fget (d0 path)). unfold ops, vort_grid, n_vort, vort_names, vort_dir.
    assert (HV : forall k d, ok_comp m k -> (0 <= d < 3)%Z -> is_vort_coord m ("/" ++ vort_group (vort_dir (m_dim m) k) ++ "/" ++ axis_name d)%string) by (intros k d Hk Hd; exists k, d; auto).
    unfold ok_comp, n_vort, vort_dir in HV |- *.
    destruct Hdim as [Ed|Ed]; rewrite !Ed in *; cbn [Z.eqb Pos.eqb] in HV |- *.
    - change (zrange 0 1) with [0%Z]. change (zrange 0 3) with [0; 1; 2]%Z. cbn [map combine flat_map app fst snd fold_left fop fget f_sets f_time f_text].
      eexists. split; [reflexivity|]. cbn [f_time f_text f_sets]. split; [reflexivity|]. split; [reflexivity|]. split.
      + intros nm Hnm. repeat (match goal with |- context [String.eqb ?a nm] => destruct (String.eqb_spec a nm) as [E|_]; [exfalso; apply Hnm; rewrite <- E|] end);
        [apply (HV 0 2)%Z|apply (HV 0 1)%Z|apply (HV 0 0)%Z|reflexivity]; lia.
      + intros k d Hk Hd. assert (k = 0)%Z as -> by lia. destruct (pt_cases d Hd) as [->|[->| ->]]; reflexivity.
    - change (zrange 0 3) with [0; 1; 2]%Z. cbn [map combine flat_map app fst snd fold_left fop fget f_sets f_time f_text].
      eexists. split; [reflexivity|]. cbn [f_time f_text f_sets]. split; [reflexivity|]. split; [reflexivity|]. split.
      + intros nm Hnm. repeat (match goal with |- context [String.eqb ?a nm] => destruct (String.eqb_spec a nm) as [E|_]; [exfalso; apply Hnm; rewrite <- E|] end);
        [apply (HV 2 2)%Z|apply (HV 2 1)%Z|apply (HV 2 0)%Z|apply (HV 1 2)%Z|apply (HV 1 1)%Z|apply (HV 1 0)%Z|apply (HV 0 2)%Z|apply (HV 0 1)%Z|apply (HV 0 0)%Z|reflexivity]; lia.
      + intros k d Hk Hd. destruct (pt_cases k Hk) as [->|[->| ->]]; destruct (pt_cases d Hd) as [->|[->| ->]]; reflexivity. }
  destruct EX as (G & E & A & B & C & S). exists G. split; [exact E|]. split; [exact A|]. split; [exact B|]. split; [exact C|].
  intros k Hk d Hd. exists (vcoords m k d). split; [now apply S|]. now apply HL.
Qed.
