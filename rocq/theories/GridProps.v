(** C01 - C04: the mesh built from the YAML input. *)
From Coq Require Import String Permutation.
From Verif Require Import Prelude RSum TypesModel GridModel GridSpec GridProof MeshProof.
Local Open Scope R_scope.

(** C01. Each sub-domain is filled exactly by [cells] positive widths. *)
Theorem subdomain_widths : forall (sub : subdomain) (start : R),
  start < sd_end sub -> (1 <= sd_cells sub)%Z -> 0 < sd_ratio sub ->
  exists dL,
    parseOneSubDomain sub start = Ok (sd_cells sub, sd_end sub, dL) /\
    lenZ dL = sd_cells sub /\ positive dL /\ total dL = sd_end sub - start /\
    geometric (effective_ratio sub) dL.
Proof. exact parse_sub_ok. Qed.
Print Assumptions subdomain_widths.

Example subdomain_widths_case :
  let s := mkSub 7 3 2 in
  0 < sd_end s /\ (1 <= sd_cells s)%Z /\ 0 < sd_ratio s /\
  exists a b c, parseOneSubDomain s 0 = Ok (3%Z, 7, [a; b; c]) /\ a + b + c = 7 /\ b = a * 2 /\ c = b * 2.
Proof.
  cbn zeta. cbn [sd_end sd_cells sd_ratio]. repeat split; try lra; try lia.
  unfold parseOneSubDomain. cbn [sd_end sd_cells sd_ratio].
  destruct (Rle_dec _ _) as [H|H].
  { exfalso. rewrite Rabs_right in H by lra.
    assert (1 < 10 ^ 12) by (apply Rlt_pow_R1; [lra|lia]).
    assert (/ 10 ^ 12 < / 1) by (apply Rinv_lt_contravar; [rewrite Rmult_1_l; lra|lra]). lra. }
  unfold stretchGrid. cbn [Z.ltb Z.eqb Z.compare Z.to_nat]. change (Pos.to_nat 3) with 3%nat.
  destruct (Req_EM_T _ _) as [E|E]; [simpl in E; lra|]. cbn [bind geom].
  do 3 eexists. split; [reflexivity|]. simpl. repeat split; field.
Qed.

(** C02. One axis: counts, end point, widths piece by piece, total length. *)
Theorem axis_subdomains : forall subs start,
  subs_ok start subs ->
  exists dL pieces,
    parseSubDomains subs start = Ok (sumZ (map sd_cells subs), last_end start subs, dL) /\
    lenZ dL = sumZ (map sd_cells subs) /\ positive dL /\
    dL = concat pieces /\ pieces_ok start subs pieces /\
    total dL = last_end start subs - start.
Proof. exact parse_subs_ok. Qed.
Print Assumptions axis_subdomains.

Example axis_subdomains_case : subs_ok 0 [mkSub 1 4 1; mkSub 3 5 2; mkSub 10 2 (1/2)].
Proof. simpl. repeat split; try lra; try lia. Qed.

(** C02. Whole mesh: every direction gets the data of its own entry, the
    other directions keep the 2D defaults. *)
Theorem mesh_axes : forall node,
  Forall axis_ok node -> NoDup (map (fun ax => decode_dir (ax_dir ax)) node) ->
  exists g, parseMesh node grid0 = Ok (lenZ node, g) /\ grid3 g /\
    (forall ax, In ax node -> holds_axis g ax) /\
    (forall d, ~ In d (map (fun ax => decode_dir (ax_dir ax)) node) -> same_at g grid0 d).
Proof. exact parse_mesh_ok. Qed.
Print Assumptions mesh_axes.

(** C02. The order of the direction entries does not matter. *)
Theorem mesh_axes_order_irrelevant : forall node node',
  Forall axis_ok node -> NoDup (map (fun ax => decode_dir (ax_dir ax)) node) ->
  Permutation node node' -> parseMesh node' grid0 = parseMesh node grid0.
Proof. exact parse_mesh_perm. Qed.
Print Assumptions mesh_axes_order_irrelevant.

(** C02/C03 link: what the parser produces is a valid input of the coordinate
    construction. *)
Theorem parsed_mesh_is_valid_grid : forall node,
  Forall axis_ok node ->
  Permutation (map (fun ax => decode_dir (ax_dir ax)) node) (zrange 0 (lenZ node)) ->
  (lenZ node = 2 \/ lenZ node = 3)%Z ->
  exists g, parseMesh node grid0 = Ok (lenZ node, g) /\
    grid_ok (lenZ node) (gmin g) (gmax g) (gdL g).
Proof. exact parsed_grid_ok. Qed.
Print Assumptions parsed_mesh_is_valid_grid.

Example mesh_axes_case :
  let node := [mkAxis "y" (-1) [mkSub 1 3 1]; mkAxis "x" 0 [mkSub 1 4 1; mkSub 3 5 2]] in
  Forall axis_ok node /\ NoDup (map (fun ax => decode_dir (ax_dir ax)) node) /\
  Permutation (map (fun ax => decode_dir (ax_dir ax)) node) (zrange 0 (lenZ node)).
Proof.
  cbn zeta. split; [|split].
  - repeat constructor; cbn; try discriminate; try lra; try lia.
  - cbn. repeat constructor; cbn; intuition discriminate.
  - cbn. apply perm_swap.
Qed.

(** C03. The construction succeeds on every valid grid. *)
Theorem mesh_creation_succeeds : forall dim mn mx per w,
  grid_ok dim mn mx w -> exists m, createMeshArrays dim mn mx per w = Ok m.
Proof. exact createMesh_total. Qed.
Print Assumptions mesh_creation_succeeds.

Example grid_ok_case :
  grid_ok 2 (fun _ => 0) (fun d => if (d =? 0)%Z then 6 else 2) (fun d => if (d =? 0)%Z then [1; 2; 3] else [2]).
Proof.
  split; [lia|]. intros d Hd. assert (d = 0 \/ d = 1)%Z as [-> | ->] by lia; cbn;
    (split; [discriminate|split; [repeat constructor; lra|unfold total; simpl; lra]]).
Qed.

(** C03. Vertices: from min to max, strictly increasing. *)
Theorem vertices : forall dim mn mx per w m,
  grid_ok dim mn mx w -> createMeshArrays dim mn mx per w = Ok m ->
  forall d, (0 <= d < dim)%Z ->
  m_n m 4 d = (lenZ (w d) + 1)%Z /\
  m_coord m 4 d 0 = Ok (mn d) /\ m_coord m 4 d (lenZ (w d)) = Ok (mx d) /\
  (forall k, (0 <= k <= lenZ (w d))%Z -> m_coord m 4 d k = Ok (vtx (mn d) (w d) k)) /\
  (forall i j x y, (i < j)%Z -> m_coord m 4 d i = Ok x -> m_coord m 4 d j = Ok y -> x < y).
Proof. exact vertex_statement. Qed.
Print Assumptions vertices.

(** C03. Pressure points: cell centres and cell widths. *)
Theorem pressure_points : forall dim mn mx per w m,
  createMeshArrays dim mn mx per w = Ok m ->
  forall d, (0 <= d < dim)%Z ->
  m_n m 3 d = lenZ (w d) /\
  (forall k, (0 <= k < lenZ (w d))%Z ->
     m_coord m 3 d k = Ok (ctr (mn d) (w d) k) /\
     m_dL m 3 d k = Ok (vtx (mn d) (w d) (k + 1) - vtx (mn d) (w d) k)) /\
  (forall k, (k < 0 \/ lenZ (w d) <= k)%Z -> m_coord m 3 d k = UB /\ m_dL m 3 d k = UB).
Proof. exact mesh_pressure. Qed.
Print Assumptions pressure_points.

(** C03. Velocity component along its own axis, non-periodic: interior
    vertices; the ghosts sit on the domain boundary; widths reach from cell
    centre to cell centre. *)
Theorem velocity_own_axis : forall dim mn mx per w m,
  grid_ok dim mn mx w -> createMeshArrays dim mn mx per w = Ok m ->
  forall f, (0 <= f < dim)%Z -> per f f = false ->
  m_n m f f = (lenZ (w f) - 1)%Z /\
  (forall i, (-1 <= i <= lenZ (w f) - 1)%Z -> m_coord m f f i = Ok (vtx (mn f) (w f) (i + 1))) /\
  (forall i, (0 <= i < lenZ (w f) - 1)%Z ->
     m_dL m f f i = Ok ((vtx (mn f) (w f) (i + 2) - vtx (mn f) (w f) i) / 2)) /\
  m_coord m f f (-1) = Ok (mn f) /\ m_coord m f f (m_n m f f) = Ok (mx f).
Proof. exact own_statement. Qed.
Print Assumptions velocity_own_axis.

(** C03. Velocity component along another axis, non-periodic: cell centres;
    each ghost is the mirror image about the boundary. *)
Theorem velocity_other_axis : forall dim mn mx per w m,
  grid_ok dim mn mx w -> createMeshArrays dim mn mx per w = Ok m ->
  forall f d, (0 <= f < dim)%Z -> (0 <= d < dim)%Z -> f <> d -> per f d = false ->
  m_n m f d = lenZ (w d) /\
  (forall i, (0 <= i < lenZ (w d))%Z ->
     m_coord m f d i = m_coord m 3 d i /\ m_dL m f d i = m_dL m 3 d i) /\
  (exists x, m_coord m f d 0 = Ok x /\ m_coord m f d (-1) = Ok (2 * mn d - x)) /\
  (exists x, m_coord m f d (lenZ (w d) - 1) = Ok x /\ m_coord m f d (lenZ (w d)) = Ok (2 * mx d - x)) /\
  m_dL m f d (-1) = m_dL m f d 0 /\ m_dL m f d (lenZ (w d)) = m_dL m f d (lenZ (w d) - 1).
Proof. exact other_statement. Qed.
Print Assumptions velocity_other_axis.

(** C03. Coordinates of every component in every direction, ghosts included,
    are strictly increasing (periodic or not). *)
Theorem velocity_coordinates_increase : forall dim mn mx per w m,
  grid_ok dim mn mx w -> createMeshArrays dim mn mx per w = Ok m ->
  forall f d i j x y, (0 <= f < dim)%Z -> (0 <= d < dim)%Z -> (i < j)%Z ->
  m_coord m f d i = Ok x -> m_coord m f d j = Ok y -> x < y.
Proof. exact increasing_statement. Qed.
Print Assumptions velocity_coordinates_increase.

(** C03. Exactly the entries -1 .. n are readable, and widths are positive. *)
Theorem velocity_entries_readable : forall dim mn mx per w m,
  grid_ok dim mn mx w -> createMeshArrays dim mn mx per w = Ok m ->
  forall f d i, (0 <= f < dim)%Z -> (0 <= d < dim)%Z -> (-1 <= i <= m_n m f d)%Z ->
  (exists x, m_coord m f d i = Ok x) /\ exists x, m_dL m f d i = Ok x /\ 0 < x.
Proof. exact widths_positive_statement. Qed.
Print Assumptions velocity_entries_readable.

Theorem velocity_entries_outside_unreadable : forall dim mn mx per w m,
  grid_ok dim mn mx w -> createMeshArrays dim mn mx per w = Ok m ->
  forall f d i, (0 <= f < dim)%Z -> (0 <= d < dim)%Z -> (i < -1 \/ m_n m f d < i)%Z ->
  m_coord m f d i = UB /\ m_dL m f d i = UB.
Proof. exact reads_outside_statement. Qed.
Print Assumptions velocity_entries_outside_unreadable.

(** C04. Periodic axis: one point per cell; ghosts are the wrapped points
    shifted by the domain length, with the wrapped points' widths. *)
Theorem periodic_ghosts : forall dim mn mx per w m,
  grid_ok dim mn mx w -> createMeshArrays dim mn mx per w = Ok m ->
  forall f d, (0 <= f < dim)%Z -> (0 <= d < dim)%Z -> per f d = true ->
  let n := m_n m f d in
  n = lenZ (w d) /\
  (exists x, m_coord m f d (n - 1) = Ok x /\ m_coord m f d (-1) = Ok (x - (mx d - mn d))) /\
  (exists x, m_coord m f d 0 = Ok x /\ m_coord m f d n = Ok (x + (mx d - mn d))) /\
  m_dL m f d (-1) = m_dL m f d (n - 1) /\ m_dL m f d n = m_dL m f d 0.
Proof. exact periodic_statement. Qed.
Print Assumptions periodic_ghosts.

Theorem periodic_own_axis_interior : forall dim mn mx per w m,
  grid_ok dim mn mx w -> createMeshArrays dim mn mx per w = Ok m ->
  forall f i, (0 <= f < dim)%Z -> per f f = true -> (-1 <= i <= lenZ (w f) - 1)%Z ->
  m_coord m f f i = Ok (vtx (mn f) (w f) (i + 1)) /\
  ((0 <= i < lenZ (w f) - 1)%Z ->
   m_dL m f f i = Ok ((vtx (mn f) (w f) (i + 2) - vtx (mn f) (w f) i) / 2)).
Proof. exact periodic_own_statement. Qed.
Print Assumptions periodic_own_axis_interior.

Theorem other_axis_interior : forall dim mn mx per w m,
  grid_ok dim mn mx w -> createMeshArrays dim mn mx per w = Ok m ->
  forall f d i, (0 <= f < dim)%Z -> (0 <= d < dim)%Z -> f <> d -> (0 <= i < lenZ (w d))%Z ->
  m_coord m f d i = m_coord m 3 d i /\ m_dL m f d i = m_dL m 3 d i.
Proof. exact periodic_other_statement. Qed.
Print Assumptions other_axis_interior.

(** A periodic axis of a single cell is also covered: the hypotheses of
    [periodic_ghosts] hold for it and the width of the ghost is the cell. *)
Example periodic_case : exists m,
  createMeshArrays 2 (fun _ => 0) (fun d => if (d =? 0)%Z then 6 else 2) (fun _ _ => true)
     (fun d => if (d =? 0)%Z then [1; 2; 3] else [2]) = Ok m /\
  m_n m 0 0 = 3%Z /\ m_coord m 0 0 3 = Ok 7 /\ m_coord m 1 1 1 = Ok 4.
Proof.
  eexists; split; [reflexivity|]. split; [reflexivity|]. split.
  - cbv -[IZR Rplus Rminus Rmult Rinv Rdiv Ropp]. f_equal. lra.
  - cbv -[IZR Rplus Rminus Rmult Rinv Rdiv Ropp]. f_equal. lra.
Qed.
