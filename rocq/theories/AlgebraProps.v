(** Algebraic properties of the discrete operators (C15, C17, C18, C19, C26). *)
From Coq Require Import ZifyBool.
From Verif Require Import Prelude ZSum RSum TypesModel GridModel GridSpec IndexModel IndexSpec
  BoundaryModel BoundarySpec BoundaryProof OperatorModel OperatorSpec OperatorProof BStateProof LapProof DivProof GradProof AdjProof SymProof
  SolutionModel ExampleSetup OperatorProps.
Local Open Scope R_scope.

(** C15. On every mesh the Laplacian row of a point with interior neighbours
    annihilates fields that are affine in the coordinates. *)
Theorem laplacian_annihilates_affine : forall m D types values h0 B0 op a b x,
  mesh_setup m D -> bc_fits m types -> has_ics h0 -> periodic_min m 3 ->
  boundary_after m D types values h0 B0 -> createLaplacian m D B0 = Ok op ->
  samples m D (fun f p => a + zsum (fun d => b d * crd m f d (pc p d)) 0 (m_dim m)) x ->
  forall id f p, nthZ (packed_layout (m_dim m) D) id = Some (f, p) -> inner_point m f p ->
    mat_mult (op_log op) (n_velocity m) x id = 0.
Proof.
  intros m D types values h0 B0 op a b x Hs Hb Hi Hm HB E Hx id f p Hid Hp. pose proof (setup_facts _ _ Hs) as F.
  rewrite (createLaplacian_ok m D types values h0 B0 F Hb HB) in E. injection E as <-.
  destruct (velocity_row m D id f p F Hid) as (Hf & Hint & -> & _).
  rewrite (lap_inner_row m D types values h0 f p x _ F Hb Hi Hm Hf Hp Hx). now apply (laplacian_linear_lemma m D).
Qed.
Print Assumptions laplacian_annihilates_affine.

(** C15. It gives exactly 2 on the square of the coordinate along the axis of
    the component itself. *)
Theorem laplacian_of_own_square : forall m D types values h0 B0 op x,
  mesh_setup m D -> bc_fits m types -> has_ics h0 -> periodic_min m 3 ->
  boundary_after m D types values h0 B0 -> createLaplacian m D B0 = Ok op ->
  samples m D (fun f p => crd m f f (pc p f) * crd m f f (pc p f)) x ->
  forall id f p, nthZ (packed_layout (m_dim m) D) id = Some (f, p) -> inner_point m f p ->
    mat_mult (op_log op) (n_velocity m) x id = 2.
Proof.
  intros m D types values h0 B0 op x Hs Hb Hi Hm HB E Hx id f p Hid Hp. pose proof (setup_facts _ _ Hs) as F.
  rewrite (createLaplacian_ok m D types values h0 B0 F Hb HB) in E. injection E as <-.
  destruct (velocity_row m D id f p F Hid) as (Hf & Hint & -> & _).
  rewrite (lap_inner_row m D types values h0 f p x _ F Hb Hi Hm Hf Hp Hx). now apply (laplacian_square_lemma m D).
Qed.
Print Assumptions laplacian_of_own_square.

(** C15. The whole assembled matrix, boundary rows included, is self-adjoint
    under the weighting by the cell volume around each velocity point. *)
Theorem laplacian_self_adjoint : forall m D types values h0 B0 op,
  mesh_setup m D -> bc_fits m types -> has_ics h0 -> periodic_min m 3 ->
  boundary_after m D types values h0 B0 -> createLaplacian m D B0 = Ok op ->
  forall i f p j g q, nthZ (packed_layout (m_dim m) D) i = Some (f, p) -> nthZ (packed_layout (m_dim m) D) j = Some (g, q) ->
    point_volume m f p * entry (op_log op) i j = point_volume m g q * entry (op_log op) j i.
Proof.
  intros m D types values h0 B0 op Hs Hb Hi Hm HB E i f p j g q Hp Hq. pose proof (setup_facts _ _ Hs) as F.
  rewrite (createLaplacian_ok m D types values h0 B0 F Hb HB) in E. injection E as <-.
  destruct (velocity_row m D i f p F Hp) as (Hf & Hpi & -> & _). destruct (velocity_row m D j g q F Hq) as (Hg & Hqi & -> & _).
  now apply lap_symmetric.
Qed.
Print Assumptions laplacian_self_adjoint.

(** Limit of C15: across the other axes the square is not differentiated
    exactly on a stretched mesh (v at x-widths 1, 2, 1 gives 3/2). *)
Theorem laplacian_transverse_square_refuted : exists m D f d p,
  mesh_setup m D /\ (0 <= f < m_dim m)%Z /\ (0 <= d < m_dim m)%Z /\ interior (m_n m f) p /\ (1 <= pc p d <= m_n m f d - 2)%Z /\
  laplacian_at m f (fun g q => crd m g d (pc q d) * crd m g d (pc q d)) p <> 2.
Proof.
  exists (ex_mesh false false), (ex_dec false false), 1%Z, 0%Z, (1, 0, 0)%Z. split; [apply ex_setup|].
  rewrite ex_dim. split; [lia|]. split; [lia|].
  split. { change (0 <= 1 < 4 /\ 0 <= 0 < 2 /\ 0 <= 0 < 1)%Z. lia. }
  split. { change (1 <= 1 <= 4 - 2)%Z. lia. }
  assert (E : laplacian_at (ex_mesh false false) 1 (fun g q => crd (ex_mesh false false) g 0 (pc q 0) * crd (ex_mesh false false) g 0 (pc q 0)) (1, 0, 0)%Z = 3 / 2).
  { unfold laplacian_at, zsum, second_difference.
    set (c := crd (ex_mesh false false) 1 0). set (e := crd (ex_mesh false false) 1 1).
    assert (c0 : c 0%Z = 1 / 2) by (unfold c; cbv -[IZR Rplus Rminus Rmult Rinv Rdiv Ropp]; field).
    assert (c1 : c 1%Z = 2) by (unfold c; cbv -[IZR Rplus Rminus Rmult Rinv Rdiv Ropp]; field).
    assert (c2 : c 2%Z = 7 / 2) by (unfold c; cbv -[IZR Rplus Rminus Rmult Rinv Rdiv Ropp]; field).
    assert (w1 : wid (ex_mesh false false) 1 0 1 = 2) by (cbv -[IZR Rplus Rminus Rmult Rinv Rdiv Ropp]; field).
    change (zrange 0 (m_dim (ex_mesh false false))) with [0; 1]%Z. cbn [sumR setc pc Z.eqb Pos.eqb Z.add Z.sub Z.opp Z.pos_sub Pos.add].
    fold c. rewrite c0, c1, c2, w1. unfold Rdiv.
    repeat match goal with |- context[/ ?x] => match x with context[crd] => generalize (/ x); intros ? | context[wid] => generalize (/ x); intros ? end end.
    field. }
  rewrite E. lra.
Qed.
Print Assumptions laplacian_transverse_square_refuted.

(** C17. Summed over all cells, D x + Dbc is the net flux through the boundary
    of the domain, and zero when every direction is periodic. *)
Theorem discrete_divergence_theorem : forall m D types values nrm h0 h1 x B0 B1 B2 u,
  mesh_setup m D -> bc_fits m types -> has_ics h0 -> periodic_min m 2 ->
  boundary_after m D types values h0 B0 ->
  boundary_after m D types values (h0 ++ h1) B1 ->
  boundary_after m D types values (h0 ++ h1 ++ [OpVals x]) B2 ->
  extends m D B2 x u ->
  exists op c, createDivergence m D B0 nrm = Ok op /\ correction_mult m (nranks D) op B1 = Ok c /\
    zsum (fun id => mat_mult (op_log op) (n_velocity m) x id + c id) 0 (n_pressure m) = domain_outflow m nrm u /\
    ((forall d, (0 <= d < m_dim m)%Z -> periodic_dir m d = true) ->
     zsum (fun id => mat_mult (op_log op) (n_velocity m) x id + c id) 0 (n_pressure m) = 0).
Proof.
  intros m D types values nrm h0 h1 x B0 B1 B2 u Hs Hb Hi Hm HB0 HB1 HB2 Hu. pose proof (setup_facts _ _ Hs) as F.
  destruct (divergence_lemma m D types values nrm h0 h1 x B0 B1 B2 u F Hb Hi Hm HB0 HB1 HB2 Hu) as (op & c & E1 & E2 & E3).
  exists op, c. split; [exact E1|]. split; [exact E2|].
  assert (X : zsum (fun id => mat_mult (op_log op) (n_velocity m) x id + c id) 0 (n_pressure m) = domain_outflow m nrm u).
  { rewrite (sum_cells m D (net_flux m nrm u)) by auto. apply total_flux, (mf_dim _ _ F). }
  split; [exact X|]. intros Hp. rewrite X. now apply (periodic_outflow m D nrm B2 x u).
Qed.
Print Assumptions discrete_divergence_theorem.

(** C18. The gradient itself: the difference between the two cells sharing the
    face, over their distance. *)
Theorem gradient_is_face_difference : forall m D nrm y P,
  mesh_setup m D -> periodic_min m 2 -> pressure_values D y P ->
  exists g, createGradient m D nrm = Ok g /\
    forall id f p, nthZ (packed_layout (m_dim m) D) id = Some (f, p) ->
      mat_mult g (n_pressure m) y id = gradient_at m nrm P f p.
Proof. intros m D nrm y P Hs. exact (gradient_lemma m D nrm y P (setup_facts _ _ Hs)). Qed.
Print Assumptions gradient_is_face_difference.

(** C18. D = -(R MHead G)^T entry by entry for the plain operators and
    D = -G^T for the normalised ones, in the columns of the components without
    a Neumann condition across their own boundaries. *)
Theorem divergence_is_minus_gradient_adjoint : forall m D types values nrm h0 B0 op,
  mesh_setup m D -> bc_fits m types -> has_ics h0 -> periodic_min m 2 ->
  boundary_after m D types values h0 B0 -> createDivergence m D B0 nrm = Ok op ->
  exists g Rm Mm, createGradient m D nrm = Ok g /\ createR m D = Ok Rm /\ createMHead m D = Ok Mm /\
    forall i p j f q, nthZ (field_layout D 3) i = Some p -> nthZ (packed_layout (m_dim m) D) j = Some (f, q) ->
      types f (2 * f)%Z <> NEUMANN -> types f (2 * f + 1)%Z <> NEUMANN ->
      entry (op_log op) i j =
        if nrm then - entry g j i
        else - mat_mult Rm (n_velocity m) (mat_mult Mm (n_velocity m) (fun k => entry g k i)) j.
Proof.
  intros m D types values nrm h0 B0 op Hs Hb Hi Hm HB E. pose proof (setup_facts _ _ Hs) as F.
  rewrite (createDivergence_ok m D types values nrm h0 B0 F Hb HB) in E. injection E as <-.
  exists (asm_ins (nranks D) (grad_rows m D nrm)), (asm_ins (nranks D) (diag_rows m D (fun f p => face_area m false f p))),
    (asm_ins (nranks D) (diag_rows m D (fun f p => wid m f f (pc p f)))).
  split; [now apply createGradient_ok|].
  split; [apply createDiag_ok; auto; intros; now apply (area_kernel_ok m D)|].
  split; [apply createDiag_ok; auto; intros; now apply (width_kernel_ok m D)|].
  intros i p j f q Hp Hq T0 T1.
  destruct (diag_lemma m D (fun f p => face_area m false f p) F) as [DR _]. destruct (diag_lemma m D (fun f p => wid m f f (pc p f)) F) as [DM _].
  rewrite (DR _ _ _ _ Hq), (DM _ _ _ _ Hq).
  destruct (pressure_row m D i p F Hp) as (Hpi & -> & _). destruct (velocity_row m D j f q F Hq) as (Hf & Hqi & -> & _).
  rewrite (adjoint_entry m D types values nrm h0 f q p) by auto. destruct nrm; unfold face_area; lra.
Qed.
Print Assumptions divergence_is_minus_gradient_adjoint.

(** C18, C19. D G is symmetric and negative semi-definite; its quadratic form
    vanishes exactly on the constant pressures. *)
Theorem pressure_operator_symmetric_negative : forall m D types values nrm h0 B0 op g,
  mesh_setup m D -> bc_fits m types -> has_ics h0 -> periodic_min m 2 -> no_normal_neumann m types ->
  boundary_after m D types values h0 B0 -> createDivergence m D B0 nrm = Ok op -> createGradient m D nrm = Ok g ->
  let A y := mat_mult (op_log op) (n_velocity m) (mat_mult g (n_pressure m) y) in
  let dot y z := zsum (fun r => y r * z r) 0 (n_pressure m) in
  (forall y z, dot y (A z) = dot z (A y)) /\
  (forall y, dot y (A y) <= 0) /\
  (forall y, dot y (A y) = 0 <-> forall c c', (0 <= c < n_pressure m)%Z -> (0 <= c' < n_pressure m)%Z -> y c = y c').
Proof.
  intros m D types values nrm h0 B0 op g Hs Hb Hi Hm Hn HB E Eg A dot. pose proof (setup_facts _ _ Hs) as F.
  rewrite (createDivergence_ok m D types values nrm h0 B0 F Hb HB) in E. injection E as <-.
  rewrite createGradient_ok in Eg by auto. injection Eg as <-.
  split; [|split].
  - intros y z. now apply dg_symmetric.
  - intros y. now apply dg_negative.
  - intros y. split; [now apply dg_kernel|]. intros Hc. pose proof (proj2 (grad_zero_const m D nrm y F Hm) Hc) as Hz.
    unfold dot, A, mat_mult at 1, zsum. apply sumR_zero. intros r _. rewrite (sumR_zero _ (zrange 0 (n_velocity m))); [lra|].
    intros c Hin. apply zrange_In in Hin. rewrite Hz by auto. lra.
Qed.
Print Assumptions pressure_operator_symmetric_negative.

(** C19. G y = 0 exactly for the constant pressures. *)
Theorem gradient_null_space_is_constants : forall m D nrm g y,
  mesh_setup m D -> periodic_min m 2 -> createGradient m D nrm = Ok g ->
  ((forall c, (0 <= c < n_velocity m)%Z -> mat_mult g (n_pressure m) y c = 0) <->
   (forall c c', (0 <= c < n_pressure m)%Z -> (0 <= c' < n_pressure m)%Z -> y c = y c')).
Proof.
  intros m D nrm g y Hs Hm Eg. pose proof (setup_facts _ _ Hs) as F. rewrite createGradient_ok in Eg by auto. injection Eg as <-.
  now apply grad_zero_const.
Qed.
Print Assumptions gradient_null_space_is_constants.

(** C19. The constants are in the null space of D Bn G for every matrix Bn,
    whatever the boundary conditions. *)
Theorem constants_in_poisson_null_space : forall m D nrm g (dlog bn : list mev) y,
  mesh_setup m D -> periodic_min m 2 -> createGradient m D nrm = Ok g ->
  (forall c c', (0 <= c < n_pressure m)%Z -> (0 <= c' < n_pressure m)%Z -> y c = y c') ->
  forall r, mat_mult dlog (n_velocity m) (mat_mult bn (n_velocity m) (mat_mult g (n_pressure m) y)) r = 0.
Proof.
  intros m D nrm g dlog bn y Hs Hm Eg Hy r. pose proof (proj2 (gradient_null_space_is_constants m D nrm g y Hs Hm Eg) Hy) as Z0.
  unfold mat_mult at 1, zsum. apply sumR_zero. intros c _. unfold mat_mult at 1, zsum. rewrite sumR_zero; [lra|].
  intros c' Hc'. apply zrange_In in Hc'. rewrite Z0 by auto. lra.
Qed.
Print Assumptions constants_in_poisson_null_space.

(** C26. The diagonal operators. *)
Theorem diagonal_operators : forall m D, mesh_setup m D ->
  exists Rm Ri Mm Mq Id, createR m D = Ok Rm /\ createRInv m D = Ok Ri /\ createMHead m D = Ok Mm /\ createM m D = Ok Mq /\ createIdentity m D = Ok Id /\
    forall i f p j, nthZ (packed_layout (m_dim m) D) i = Some (f, p) -> (0 <= j < n_velocity m)%Z ->
      let dg v := if (i =? j)%Z then v else 0 in
      entry Rm i j = dg (face_area m false f p) /\ entry Ri i j = dg (1 / face_area m false f p) /\
      entry Mm i j = dg (wid m f f (pc p f)) /\ entry Mq i j = dg (wid m f f (pc p f) / face_area m false f p) /\
      entry Id i j = dg 1 /\ 0 < face_area m false f p /\ 0 < wid m f f (pc p f).
Proof.
  intros m D Hs. pose proof (setup_facts _ _ Hs) as F.
  exists (asm_ins (nranks D) (diag_rows m D (fun f p => face_area m false f p))), (asm_ins (nranks D) (diag_rows m D (fun f p => 1 / face_area m false f p))),
    (asm_ins (nranks D) (diag_rows m D (fun f p => wid m f f (pc p f)))), (asm_ins (nranks D) (diag_rows m D (fun f p => wid m f f (pc p f) / face_area m false f p))),
    (asm_ins (nranks D) (diag_rows m D (fun _ _ => 1))).
  split; [apply createDiag_ok; auto; intros; now apply (area_kernel_ok m D)|].
  split; [apply createDiag_ok; auto; intros; now rewrite (area_kernel_ok m D)|].
  split; [apply createDiag_ok; auto; intros; now apply (width_kernel_ok m D)|].
  split; [apply createDiag_ok; auto; intros; rewrite (width_kernel_ok m D) by auto; cbn [bind]; now rewrite (area_kernel_ok m D)|].
  split; [now apply createDiag_ok|].
  intros i f p j Hi Hj dg. destruct (velocity_row m D i f p F Hi) as (Hf & Hp & _).
  repeat split; try (refine (proj2 (diag_lemma m D _ F) i f p j Hi Hj)).
  - apply (face_area_pos m D); auto. exact (vcell m D f p F Hf Hp).
  - exact (own_width_pos m D f p F Hf Hp).
Qed.
Print Assumptions diagonal_operators.

(** C26. RInv R = I, M = MHead RInv, and the flux and velocity conversions undo
    each other on every solution. *)
Theorem flux_velocity_round_trip : forall m D Rm Ri Mm Mq s, mesh_setup m D ->
  createR m D = Ok Rm -> createRInv m D = Ok Ri -> createMHead m D = Ok Mm -> createM m D = Ok Mq ->
  let nv := n_velocity m in
  forall i, (0 <= i < nv)%Z ->
    UGlobal (convert2Velocity nv Ri (convert2Flux nv Rm s)) i = UGlobal s i /\
    UGlobal (convert2Flux nv Rm (convert2Velocity nv Ri s)) i = UGlobal s i /\
    (forall x, mat_mult Mq nv x i = mat_mult Mm nv (mat_mult Ri nv x) i) /\
    pGlobal (convert2Velocity nv Ri (convert2Flux nv Rm s)) = pGlobal s.
Proof.
  intros m D Rm Ri Mm Mq s Hs ER ERi EM EMq nv i Hi. pose proof (setup_facts _ _ Hs) as F.
  assert (X1 : createR m D = Ok (asm_ins (nranks D) (diag_rows m D (fun f p => face_area m false f p)))) by (apply createDiag_ok; auto; intros; now apply (area_kernel_ok m D)).
  assert (X2 : createRInv m D = Ok (asm_ins (nranks D) (diag_rows m D (fun f p => 1 / face_area m false f p)))) by (apply createDiag_ok; auto; intros; now rewrite (area_kernel_ok m D)).
  assert (X3 : createMHead m D = Ok (asm_ins (nranks D) (diag_rows m D (fun f p => wid m f f (pc p f))))) by (apply createDiag_ok; auto; intros; now apply (width_kernel_ok m D)).
  assert (X4 : createM m D = Ok (asm_ins (nranks D) (diag_rows m D (fun f p => wid m f f (pc p f) / face_area m false f p)))).
  { apply createDiag_ok; auto; intros; rewrite (width_kernel_ok m D) by auto; cbn [bind]; now rewrite (area_kernel_ok m D). }
  rewrite ER in X1. rewrite ERi in X2. rewrite EM in X3. rewrite EMq in X4. injection X1 as ->. injection X2 as ->. injection X3 as ->. injection X4 as ->.
  destruct (velocity_ids m D i F Hi) as (f & p & Hid). destruct (velocity_row m D i f p F Hid) as (Hf & Hp & _).
  pose proof (face_area_pos m D false f p F Hf (vcell m D f p F Hf Hp)) as Ha.
  unfold convert2Velocity, convert2Flux. cbn [UGlobal pGlobal]. unfold nv.
  split; [|split; [|split; [|reflexivity]]]; intros; rewrite !(proj1 (diag_lemma m D _ F) _ i f p Hid).
  all: unfold face_area in *; set (A := wid m f (perp0 f) (pc p (perp0 f)) * wid m f (perp1 f) (pc p (perp1 f))) in *; clearbody A; field; lra.
Qed.
Print Assumptions flux_velocity_round_trip.

(** Inner points, affine samples and a Neumann-free table exist on the example
    mesh (periodic in y, two ranks). *)
Example algebra_case : let m := ex_mesh false true in
  mesh_setup m (ex_dec false true) /\ bc_fits m ex_types /\ periodic_min m 3 /\ no_normal_neumann m ex_types /\
  inner_point m 0 (1, 1, 0)%Z /\ (exists id, nthZ (packed_layout 2 (ex_dec false true)) id = Some (0, (1, 1, 0))%Z).
Proof.
  intros m. split; [apply ex_setup|]. split; [apply ex_fits|]. split; [now apply ex_min|].
  split. { intros f Hf. change (m_dim m) with 2%Z in Hf. assert (f = 0 \/ f = 1)%Z as [->| ->] by lia; split; discriminate. }
  split. { split; [change (0 <= 1 < 3 /\ 0 <= 1 < 3 /\ 0 <= 0 < 1)%Z; lia|]. intros d Hd. change (m_dim m) with 2%Z in Hd.
    assert (d = 0 \/ d = 1)%Z as [->| ->] by lia; change (1 <= 1 <= 3 - 2)%Z; lia. }
  exists 3%Z. reflexivity.
Qed.
