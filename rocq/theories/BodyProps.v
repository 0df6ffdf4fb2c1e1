(** Property theorems about the immersed bodies (C09, C46, C47, C48). *)
From Coq Require Import String Ascii Reals Lra.
From Verif Require Import Prelude ZSum RSum TypesModel GridModel GridSpec GridProof MeshProof IndexModel IndexSpec IndexProof ExampleSetup
  BodyModel BodySpec BodyProof BodyUse BodyText.
Local Open Scope string_scope.
Local Open Scope list_scope.
Local Open Scope Z_scope.

(** * C09 *)

(** C09: (body, point, component) is mapped one-to-one onto 0 .. nPts*dim-1,
    to its position in the rank-major, body-by-body layout. *)
Theorem body_index_bijection : forall size dim bodies, pack_ok size dim bodies ->
  (forall b n i c, has_points bodies b n -> 0 <= i < n -> 0 <= c < dim ->
     exists idx, bp_getPackedGlobalIndex size dim bodies b i c = Ok idx /\ 0 <= idx < bp_nPts bodies * dim /\
       nthZ (body_layout size dim bodies) idx = Some (b, i, c)) /\
  (forall b i c b' i' c' idx, bp_getPackedGlobalIndex size dim bodies b i c = Ok idx ->
     bp_getPackedGlobalIndex size dim bodies b' i' c' = Ok idx -> (b, i, c) = (b', i', c')) /\
  (forall idx, 0 <= idx < bp_nPts bodies * dim ->
     exists b i c, bp_getPackedGlobalIndex size dim bodies b i c = Ok idx).
Proof. exact packed_body_bijection. Qed.
Print Assumptions body_index_bijection.

(** C09: the owner search returns the rank whose range contains the point. *)
Theorem body_owner : forall size dim bodies b n i, pack_ok size dim bodies -> has_points bodies b n -> 0 <= i < n ->
  exists r bo, bp_findProc size dim bodies b i = Ok r /\ 0 <= r < size /\ nthZ bodies b = Some bo /\
    b_bg bo r <= i < b_bg bo r + b_l bo r.
Proof. exact findProc_owner. Qed.
Print Assumptions body_owner.

(** C09: anything out of range is rejected with an error code. *)
Theorem body_index_rejects : forall size dim bodies b i c,
  (forall n, has_points bodies b n -> ~ (0 <= i < n /\ 0 <= c < dim)) ->
  bp_getPackedGlobalIndex size dim bodies b i c = Err PETSC_ERR_ARG_SIZ.
Proof. intros size dim bodies b i c H. apply packed_body_rejects. intros bo E. apply H. exists bo. auto. Qed.
Print Assumptions body_index_rejects.

Theorem body_owner_rejects : forall size dim bodies b i,
  (forall n, has_points bodies b n -> ~ (0 <= i < n)) -> bp_findProc size dim bodies b i = Err PETSC_ERR_ARG_SIZ.
Proof. intros size dim bodies b i H. apply findProc_rejects. intros bo E. apply H. exists bo. auto. Qed.
Print Assumptions body_owner_rejects.

(** PETSc's default distribution is one of those covered. *)
Theorem default_distribution : forall size n, 1 <= size -> 0 <= n -> spread size (default_body size n).
Proof.
  intros size n Hs Hn. split.
  - intros r Hr. cbn. unfold dmda_l. pose proof (Z.div_pos n size Hn ltac:(lia)). destruct (n mod size >? r); lia.
  - cbn. rewrite isum_dmda by lia. pose proof (Z.div_mod n size ltac:(lia)). pose proof (Z.mod_pos_bound n size ltac:(lia)). lia.
Qed.
Print Assumptions default_distribution.

(** Two bodies of 3 and 1 points on two ranks; the second rank owns no point of
    the second body. *)
Definition two_bodies : list body := [default_body 2 3; default_body 2 1].
Example two_bodies_ok : pack_ok 2 2 two_bodies.
Proof. split; [lia|]. split; [lia|]. repeat constructor; try apply default_distribution; lia. Qed.
Example two_bodies_index :
  map (fun u => bp_getPackedGlobalIndex 2 2 two_bodies (fst (fst u)) (snd (fst u)) (snd u)) [(0, 0, 0); (1, 0, 1); (0, 2, 1)]
  = [Ok 0; Ok 5; Ok 7] /\ bp_findProc 2 2 two_bodies 0 2 = Ok 1.
Proof. split; reflexivity. Qed.

(** * C48 *)

(** C48: whatever the distribution, the result for each body and component is
    minus the sum of the forces over all points of the body. *)
Theorem integrated_forces : forall size dim bodies f force,
  pack_ok size dim bodies -> local_sizes size dim bodies f -> holds_forces size dim bodies f force ->
  exists avg, bp_calculateAvgForces size dim bodies f = Ok avg /\ lenZ avg = lenZ bodies /\
    forall b n, has_points bodies b n -> exists row, nthZ avg b = Some row /\ lenZ row = dim /\
      forall c, 0 <= c < dim -> nthZ row c = Some (- zsum (fun i => force b i c) 0 n)%R.
Proof.
  intros size dim bodies f force Hok Hs Hf. eexists. split; [eapply avg_forces; eauto|]. pose proof (lenZ_nonneg bodies) as L.
  split; [rewrite lenZ_map, zrange_lenZ by lia; lia|]. intros b n (bo & E & <-). pose proof (nthZ_Some_range _ _ _ E) as Hb.
  eexists. split; [rewrite nthZ_map, nthZ_zrange by lia; cbn [option_map Z.add]; rewrite E; reflexivity|].
  destruct Hok as (_ & Hd & _). split; [rewrite lenZ_map, zrange_lenZ by lia; lia|].
  intros c Hc. rewrite nthZ_map, nthZ_zrange by lia. reflexivity.
Qed.
Print Assumptions integrated_forces.

(** C48: two runs with the same bodies and the same forces, on different
    numbers of ranks and with different distributions, give the same result. *)
Theorem integrated_forces_independent : forall dim size1 size2 bodies1 bodies2 f1 f2 force,
  pack_ok size1 dim bodies1 -> pack_ok size2 dim bodies2 -> map b_nPts bodies1 = map b_nPts bodies2 ->
  local_sizes size1 dim bodies1 f1 -> local_sizes size2 dim bodies2 f2 ->
  holds_forces size1 dim bodies1 f1 force -> holds_forces size2 dim bodies2 f2 force ->
  bp_calculateAvgForces size1 dim bodies1 f1 = bp_calculateAvgForces size2 dim bodies2 f2.
Proof.
  intros dim size1 size2 bodies1 bodies2 f1 f2 force Hok1 Hok2 Hn Hs1 Hs2 Hf1 Hf2.
  rewrite (avg_forces size1 dim bodies1 Hok1 f1 force Hs1 Hf1), (avg_forces size2 dim bodies2 Hok2 f2 force Hs2 Hf2).
  assert (L : lenZ bodies1 = lenZ bodies2) by (rewrite <- (lenZ_map b_nPts bodies1), <- (lenZ_map b_nPts bodies2); now f_equal).
  rewrite L. f_equal. apply map_ext. intros b. apply map_ext. intros c. do 2 f_equal.
  assert (E : nthZ (map b_nPts bodies1) b = nthZ (map b_nPts bodies2) b) by (now f_equal).
  rewrite !nthZ_map in E. destruct (nthZ bodies1 b), (nthZ bodies2 b); cbn [option_map] in E; congruence.
Qed.
Print Assumptions integrated_forces_independent.

Definition ex_forces (r : Z) : list R := if (r =? 0)%Z then [1; 2; 3; 4; 5; 6]%R else [7; 8]%R.
Example forces_case : local_sizes 2 2 two_bodies ex_forces /\
  exists force, holds_forces 2 2 two_bodies ex_forces force /\ force 0 2 1 = 8%R /\ force 1 0 0 = 5%R.
Proof.
  split.
  - intros r Hr. assert (r = 0 \/ r = 1) as [-> | ->] by lia; reflexivity.
  - exists (fun b i c => if (b =? 0)%Z then IZR (if (i =? 2)%Z then 7 + c else 2 * i + c + 1) else IZR (5 + c)).
    split; [reflexivity|]. split; reflexivity.
Qed.

(** * C47 *)

(** C47: on every rank, each local point strictly inside the domain gets, in
    every direction, the cell whose vertices enclose it. *)
Theorem host_cells : forall dim mn mx per w m b coords r,
  grid_ok dim mn mx w -> createMeshArrays dim mn mx per w = Ok m ->
  Forall (fun row => lenZ row = dim) coords -> 0 <= b_bg b r -> b_ed b r <= lenZ coords ->
  (forall i row, b_bg b r <= i < b_ed b r -> nthZ coords i = Some row -> inside m dim row) ->
  exists idx, updateMeshIdx m dim b coords r = Ok idx /\ lenZ idx = Z.max 0 (b_ed b r - b_bg b r) /\
    forall i row d x, b_bg b r <= i < b_ed b r -> nthZ coords i = Some row -> 0 <= d < dim -> nthZ row d = Some x ->
      exists cell k, nthZ idx (i - b_bg b r) = Some cell /\ nthZ cell d = Some k /\ 0 <= k < lenZ (w d) /\
        (vtx (mn d) (w d) k <= x < vtx (mn d) (w d) (k + 1))%R.
Proof. intros. eapply update_ok; eauto. Qed.
Print Assumptions host_cells.

(** C47: there is only one such cell. *)
Theorem host_cell_unique : forall mn w x k k', positive w -> 0 <= k < lenZ w -> 0 <= k' < lenZ w ->
  (vtx mn w k <= x < vtx mn w (k + 1) -> vtx mn w k' <= x < vtx mn w (k' + 1) -> k = k')%R.
Proof. exact cell_unique. Qed.
Print Assumptions host_cell_unique.

(** C47: a local point on or outside of the boundary is rejected. *)
Theorem host_cells_reject : forall dim mn mx per w m b coords r,
  grid_ok dim mn mx w -> createMeshArrays dim mn mx per w = Ok m ->
  Forall (fun row => lenZ row = dim) coords -> 0 <= b_bg b r -> b_ed b r <= lenZ coords ->
  forall i row d x, b_bg b r <= i < b_ed b r -> nthZ coords i = Some row -> 0 <= d < dim -> nthZ row d = Some x ->
    (x <= mn d \/ mx d <= x)%R -> updateMeshIdx m dim b coords r = Err PETSC_ERR_MAX_VALUE.
Proof. intros. eapply update_rejects; eauto. Qed.
Print Assumptions host_cells_reject.

Definition ex_coords : list (list R) := [[/ 2; 5]; [3; / 2]; [13 / 2; 1]]%R.
Example host_case : inside (ex_mesh true false) 2 [13 / 2; 1]%R /\ Forall (fun row => lenZ row = 2) ex_coords /\
  b_bg (default_body 2 3) 1 = 2 /\ b_ed (default_body 2 3) 1 = 3.
Proof.
  split; [|split; [repeat constructor|split; reflexivity]].
  destruct (createMesh_misc _ _ _ _ _ _ (ex_create true false)) as (_ & Emin & Emax & _).
  intros d x Hd E. rewrite Emin, Emax. unfold ex_mn, ex_mx.
  assert (d = 0 \/ d = 1) as [-> | ->] by lia; cbn in E; injection E as <-; cbn; lra.
Qed.

(** * C46 *)

(** C46: a file with the count and exactly that many lines of [dim] numbers is
    read to exactly those numbers, for any lexer. *)
Theorem body_file_read : forall lx dim n rows tx, proper lx -> 1 <= dim -> 1 <= n -> point_file lx dim n rows tx ->
  readLagrangianPoints lx (Some tx) = Ok (n, rows).
Proof. exact file_exact. Qed.
Print Assumptions body_file_read.

(** C46: an accepted file has the count of the header, as many coordinate lines
    as announced, and every line after the first one holds exactly as many
    numbers as the first one. (The first coordinate line may have trailing
    text, see below.) *)
Theorem body_file_accepted : forall lx tx n coords, proper lx -> (t_nl tx = true \/ 2 <= lenZ (t_lines tx)) ->
  readLagrangianPoints lx (Some tx) = Ok (n, coords) ->
  exists header first ls row0 rest rows,
    t_lines tx = header :: first :: ls /\ lex_int lx header = Some (n, "") /\ 1 <= n /\
    reads lx first row0 rest /\ lex_real lx rest = None /\ row0 <> [] /\
    Forall2 (exact_line lx) ls rows /\ Forall (fun r => lenZ r = lenZ row0) rows /\
    coords = row0 :: rows /\ lenZ coords = n.
Proof. exact file_sound. Qed.
Print Assumptions body_file_accepted.

(** C46: no out-of-bounds access when the file has at most the announced number
    of coordinate lines (and announces at least one). *)
Theorem body_file_in_bounds : forall lx tx n extra header, lex_int lx header = Some (n, extra) -> 1 <= n ->
  (exists ls, t_lines tx = header :: ls /\ lenZ ls <= n) -> readLagrangianPoints lx (Some tx) <> UB.
Proof. exact file_no_ub. Qed.
Print Assumptions body_file_in_bounds.

(** C46, violated: a correct file followed by any further line -- even an empty
    one -- writes outside of the coordinate array. *)
Theorem body_file_extra_line_refuted : forall lx dim n rows tx s ls, proper lx -> 1 <= dim -> 1 <= n ->
  point_file lx dim n rows tx -> readLagrangianPoints lx (Some (mkText (t_lines tx ++ s :: ls) (t_nl tx))) = UB.
Proof. exact file_extra. Qed.
Print Assumptions body_file_extra_line_refuted.

(** C46, violated: a count of zero accesses the first element of an empty array;
    trailing text on the first coordinate line is accepted. *)
Theorem body_file_zero_refuted :
  readLagrangianPoints cxx (Some (mkText ["0"; "1.5 2"] true)) = UB /\
  readLagrangianPoints cxx (Some (mkText ["1"; "3 4 garbage"] true))
    = readLagrangianPoints cxx (Some (mkText ["1"; "3 4"] true)) /\
  is_ok (readLagrangianPoints cxx (Some (mkText ["1"; "3 4"] true))).
Proof. split; [reflexivity|]. split; [reflexivity|]. eexists. reflexivity. Qed.
Print Assumptions body_file_zero_refuted.

(** C46, violated: writeBody does not write the count, so the file it produces is
    always rejected by the reader. *)
Theorem body_file_written_refuted : forall pr dim coords tx, dim = 2 \/ dim = 3 -> coords <> [] ->
  Forall (fun r => lenZ r = dim) coords -> starts_visible pr -> writeBody pr dim (lenZ coords) coords = Ok tx ->
  readLagrangianPoints cxx (Some tx) = Err PETSC_ERR_FILE_READ.
Proof. exact written_not_readable. Qed.
Print Assumptions body_file_written_refuted.

(** C46: with the count in front, writing and reading is the identity for
    coordinates that the printed format represents exactly. *)
Theorem body_file_roundtrip_with_count : forall lx pr dim coords tx header, proper lx -> dim = 2 \/ dim = 3 -> coords <> [] ->
  Forall (fun r => lenZ r = dim) coords -> Forall (Forall (prints lx pr)) coords ->
  lex_int lx header = Some (lenZ coords, "") -> writeBody pr dim (lenZ coords) coords = Ok tx ->
  readLagrangianPoints lx (Some (mkText (header :: t_lines tx) (t_nl tx))) = Ok (lenZ coords, coords).
Proof.
  intros lx pr dim coords tx header Hp Hd Hne HF HP Hh W. apply body_file_read with (dim := dim); auto.
  - lia.
  - pose proof (nonempty_len _ Hne). lia.
  - eapply written_with_header; eauto.
Qed.
Print Assumptions body_file_roundtrip_with_count.

(** The syntax of C++ streams is a proper lexer, and a concrete file. *)
Theorem cxx_syntax_proper : proper cxx.
Proof. exact cxx_proper. Qed.
Print Assumptions cxx_syntax_proper.

Definition nums (l : list (Z * nat)) : list R := map (fun p => (IZR (fst p) / 10 ^ snd p)%R) l.
Example file_case : point_file cxx 2 2 [nums [(5, 1%nat); (-125, 2%nat)]; nums [(7, 0%nat); (3, 0%nat)]]
  (mkText ["2"; "0.5  -1.25"; "7 3"] false).
Proof.
  eexists _, _. split; [reflexivity|]. split; [reflexivity|]. split; [reflexivity|]. split.
  - repeat constructor; unfold exact_line; (econstructor; [reflexivity|]; econstructor; [reflexivity|constructor]).
  - repeat constructor.
Qed.
Definition pr_one (x : R) : string := "1.00000000e+00".
Example print_case : starts_visible pr_one /\ exists tx, writeBody pr_one 2 1 [[1; 1]%R] = Ok tx.
Proof.
  split; [|eexists; reflexivity]. intros x. eexists _, _. split; reflexivity.
Qed.
