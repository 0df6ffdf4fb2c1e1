(** Convection: extended fields, uniform flow, integrals. *)
From Coq Require Import Permutation ZifyBool.
From Verif Require Import Prelude ZSum RSum TypesModel GridModel GridSpec GridProof MeshProof
  IndexModel IndexSpec IndexProof BoundaryModel BoundarySpec BoundaryProof OperatorModel OperatorSpec OperatorProof
  MatModel BStateProof GradProof AdjProof ConvModel ConvSpec ConvProof ConvValue.
Local Open Scope R_scope.

Lemma extends_box_exists m D types values hist B x : mfacts m D -> bc_fits m types ->
  boundary_after m D types values hist B -> exists u, extends_box m D B x u.
Proof.
  intros F Hb HB. destruct (extends_exists m D types values hist B x F Hb HB) as (u & X1 & X2 & X3). pose proof (mf_dim _ _ F) as Hdim.
  exists (fun f q => if has_image (m_n m f) (periodic_dir m) q then u f (image (m_n m f) q) else u f q).
  assert (Hn : forall f d, (0 <= f < m_dim m)%Z -> (0 <= d < 3)%Z -> (1 <= m_n m f d)%Z) by (intros; eapply sizes_pos; eauto).
  assert (X : forall f q, (0 <= f < m_dim m)%Z -> has_image (m_n m f) (periodic_dir m) q = true ->
    (if has_image (m_n m f) (periodic_dir m) q then u f (image (m_n m f) q) else u f q) =
    (if has_image (m_n m f) (periodic_dir m) (image (m_n m f) q) then u f (image (m_n m f) (image (m_n m f) q)) else u f (image (m_n m f) q))).
  { intros f q Hf Hi. rewrite Hi. pose proof (image_in m D f q F Hf) as I. rewrite (BStateProof.image_interior _ (image (m_n m f) q)) by auto. destruct (has_image (m_n m f) (periodic_dir m) (image (m_n m f) q)); reflexivity. }
  split; [split; [|split]|].
  - intros id f p Hid. destruct (velocity_row m D id f p F Hid) as (Hf & Hp & _). rewrite <- (X1 id f p Hid). rewrite BStateProof.image_interior by auto. now destruct (has_image _ _ _).
  - intros f q Hf _ _ Hi. now apply X.
  - intros f q v Hv. rewrite <- (X3 f q v Hv).
    destruct (ghost_value_pure _ _ _ _ _ _ _ _ _ F Hb HB Hv) as (r & loc & p & Hr & Hf & Hl & Hne & Hp & _).
    destruct (Hb f loc Hf Hl) as [_ Hper].
    assert (Hp0 : periodic_dir m (loc_dir loc) = false) by (destruct (periodic_dir m (loc_dir loc)); auto; exfalso; apply Hne; now apply Hper).
    assert (Hk : In (st_of q) (map fst (gl_points m D r f loc))) by (apply in_map_iff; eexists; split; [|exact Hp]; reflexivity).
    apply gl_points_In in Hk; auto. destruct Hk as [G L].
    destruct (ghost_frame (m_n m f) loc q (periodic_dir m) ltac:(lia) ltac:(auto) G) as (_ & _ & Im). rewrite Im, Hp0. reflexivity.
  - intros f q Hf _ Hi. now apply X.
Qed.

(** * Two decompositions *)
Definition same_info (m : mesh) (D1 D2 : dec) (f : Z) (p1 p2 : ginfo) : Prop :=
  (exists t, nthZ (packed_layout (m_dim m) D1) (gi_tid p1) = Some (f, t) /\ nthZ (packed_layout (m_dim m) D2) (gi_tid p2) = Some (f, t)) /\
  gi_dL p1 = gi_dL p2 /\ gi_a0 p1 = gi_a0 p2 /\ gi_a1 p1 = gi_a1 p2 /\ gi_value p1 = gi_value p2.

Lemma same_step m D1 D2 types values r1 r2 f loc o1 o2 p1 p2 : same_call m D1 D2 o1 o2 -> same_info m D1 D2 f p1 p2 ->
  same_info m D1 D2 f (pstep (bsb m D1 types values r1 f loc) p1 o1) (pstep (bsb m D2 types values r2 f loc) p2 o2).
Proof.
  intros Ho ((t & T1 & T2) & E1 & E2 & E3 & E4).
  assert (T : forall b1 b2, (exists t, nthZ (packed_layout (m_dim m) D1) (gi_tid (pstep b1 p1 o1)) = Some (f, t) /\
    nthZ (packed_layout (m_dim m) D2) (gi_tid (pstep b2 p2 o2)) = Some (f, t))).
  { intros b1 b2. exists t. now rewrite (geom_tid _ _ (pstep_geom b1 p1 o1)), (geom_tid _ _ (pstep_geom b2 p2 o2)). }
  assert (L : forall b1 b2, gi_dL (pstep b1 p1 o1) = gi_dL (pstep b2 p2 o2)).
  { intros b1 b2. now rewrite (geom_dL _ _ (pstep_geom b1 p1 o1)), (geom_dL _ _ (pstep_geom b2 p2 o2)). }
  split; [apply T|]. split; [apply L|]. clear T L.
  assert (V : forall v1 v2, same_velocity m D1 D2 v1 v2 -> v1 (gi_tid p1) = v2 (gi_tid p2)) by (intros v1 v2 H; exact (H _ _ _ _ T1 T2)).
  destruct Ho as [v1 v2 H|v1 v2 dt H|v1 v2 H]; cbn [pstep]; rewrite (V _ _ H); generalize (v2 (gi_tid p2)); intros tv;
    unfold setGhostICsKernel, updateEqsKernel, kernelConvective, kernelConvectiveSameDir, kernelConvectiveDiffDir, bsb;
    destruct (types f loc); cbn [sb_type sb_loc sb_field sb_value sb_normal set_eq set_value gi_a0 gi_a1 gi_value gi_dL];
    try destruct (_ =? _)%Z; cbn [set_eq set_value gi_a0 gi_a1 gi_value gi_dL];
    rewrite ?E1, ?E2, ?E3, ?E4; auto.
Qed.

Lemma same_steps m D1 D2 types values r1 r2 f loc h1 h2 : Forall2 (same_call m D1 D2) h1 h2 -> forall p1 p2, same_info m D1 D2 f p1 p2 ->
  same_info m D1 D2 f (fold_left (pstep (bsb m D1 types values r1 f loc)) h1 p1) (fold_left (pstep (bsb m D2 types values r2 f loc)) h2 p2).
Proof.
  intros H. induction H as [|o1 o2 t1 t2 Ho Ht IH]; intros p1 p2 Hp; [exact Hp|]. cbn [fold_left]. apply IH. now apply same_step.
Qed.

Lemma gl_initial m D r f loc k p : In (k, p) (gl_points m D r f loc) -> gi_a0 p = 0 /\ gi_a1 p = 0 /\ gi_value p = 0.
Proof.
  unfold gl_points. destruct (checkBoundaryProc _ _ _ _ _); [|contradiction]. intros H. apply in_map_iff in H. destruct H as (ab & E & _).
  injection E as _ <-. destruct ab. cbn. auto.
Qed.

Lemma extends_both m D1 D2 types values h1 h2 B1 B2 x1 x2 u : mfacts m D1 -> mfacts m D2 -> bc_fits m types ->
  boundary_after m D1 types values h1 B1 -> boundary_after m D2 types values h2 B2 -> Forall2 (same_call m D1 D2) h1 h2 ->
  same_velocity m D1 D2 x1 x2 -> extends_box m D1 B1 x1 u -> extends_box m D2 B2 x2 u.
Proof.
  intros F1 F2 Hb HB1 HB2 Hh Hx ((X1 & X2 & X3) & X4). split; [split; [|split]|]; auto.
  - intros id f p Hid. destruct (velocity_row m D2 id f p F2 Hid) as (Hf & Hp & _). destruct (idx_spec m D1 f p F1 Hf Hp) as [_ N].
    rewrite (X1 _ _ _ N). exact (Hx _ _ _ _ N Hid).
  - intros f q v Hv. destruct (ghost_value_pure _ _ _ _ _ _ _ _ _ F2 Hb HB2 Hv) as (r2 & loc & p2 & Hr2 & Hf & Hl & Hne & Hp2 & ->).
    assert (Hk : In (st_of q) (map fst (gl_points m D2 r2 f loc))) by (apply in_map_iff; eexists; split; [|exact Hp2]; reflexivity).
    apply gl_points_In in Hk; auto. destruct Hk as [G L2].
    destruct (ghost_one_rank m D1 f loc q F1 Hf Hl G) as (r1 & Hr1 & Hk1 & _).
    apply in_map_iff in Hk1. destruct Hk1 as ([k p1] & E & Hp1). cbn [fst] in E. subst k.
    pose proof (gl_points_info m D1 r1 f loc q p1 F1 Hf Hl Hr1 Hp1) as (_ & _ & I1 & _ & _ & I2 & _).
    pose proof (gl_points_info m D2 r2 f loc q p2 F2 Hf Hl Hr2 Hp2) as (_ & _ & J1 & _ & _ & J2 & _).
    destruct (gl_initial _ _ _ _ _ _ _ Hp1) as (Z1 & Z2 & Z3). destruct (gl_initial _ _ _ _ _ _ _ Hp2) as (Y1 & Y2 & Y3).
    assert (S : same_info m D1 D2 f p1 p2). { split; [eexists; eauto|]. rewrite I2, J2, Z1, Z2, Z3, Y1, Y2, Y3. auto. }
    pose proof (same_steps m D1 D2 types values r1 r2 f loc h1 h2 Hh p1 p2 S) as (_ & _ & _ & _ & E).
    rewrite <- E. apply X3.
    exists r1. eexists. exists loc. eexists. eexists. split; [exact Hr1|]. rewrite (after_pure _ _ _ _ _ _ _ F1 Hb HB1 Hr1). unfold pure_state.
    split; [rewrite nthZ_map, nthZ_zrange by lia; cbn [option_map]; reflexivity|].
    split; [rewrite nthZ_map, nthZ_zrange by lia; cbn [option_map]; reflexivity|]. replace (0 + f)%Z with f by lia. replace (0 + loc)%Z with loc by lia.
    split; [|reflexivity]. cbn [sb_after with_points sb_points]. apply in_map_iff. exists (st_of q, p1). split; [reflexivity|]. rewrite bsb_points.
    destruct (types f loc); auto; contradiction.
Qed.

(** * Uniform flow *)
Lemma uniform_extends m D types values c pre o B x : mfacts m D -> bc_fits m types -> uniform_bc m types values c -> uniform_velocity m D c x ->
  has_ics (pre ++ [o]) -> (o = OpICs x \/ o = OpVals x) -> boundary_after m D types values (pre ++ [o]) B -> extends_box m D B x (fun f q => c f).
Proof.
  intros F Hb Hu Hx Hi Ho HB. split; [split; [|split]|]; auto.
  - intros id f p Hid. symmetry. now apply Hx in Hid.
  - intros f q v Hv. destruct (ghost_value_pure _ _ _ _ _ _ _ _ _ F Hb HB Hv) as (r & loc & p & Hr & Hf & Hl & Hne & Hp & ->).
    destruct (Hb f loc Hf Hl) as [_ Hper].
    assert (Hp0 : periodic_dir m (loc_dir loc) = false) by (destruct (periodic_dir m (loc_dir loc)); auto; exfalso; apply Hne; now apply Hper).
    assert (Hrun : forall ty, types f loc = ty -> ghosted_type ty -> exists sb, createSingleBoundary m D r loc f (values f loc) ty = Ok sb /\
      run_bops m D r (pre ++ [o]) sb = Ok (sb_after sb (pre ++ [o])) /\
      In (st_of q, fold_left (pstep (bsb m D types values r f loc)) (pre ++ [o]) p) (sb_points (sb_after sb (pre ++ [o])))).
    { intros ty Et Gt. exists (bsb m D types values r f loc). assert (Eb : bsb m D types values r f loc = mkSB ty loc f (values f loc) (normal_of loc) (checkBoundaryProc (m_n m f) D r f loc) (gl_points m D r f loc)).
      { unfold bsb. rewrite Et. destruct Gt as [->|[->| ->]]; reflexivity. }
      split; [rewrite create_ok by auto; now rewrite Eb|]. split.
      - apply run_bops_ok. pose proof (bsb_local m D types values r f loc [] F Hf Hl Hr) as L. now rewrite sb_after_nil in L.
      - cbn [sb_after with_points sb_points]. apply in_map_iff. exists (st_of q, p). split; [reflexivity|]. now rewrite Eb. }
    destruct (Hu f loc Hf Hl Hp0) as [[Et Ev]|[Et Ev]].
    + destruct (Hrun _ Et ltac:(unfold ghosted_type; tauto)) as (sb & E1 & E2 & Hin).
      destruct (dirichlet_lemma m D r loc f _ sb pre o x _ F Hf Hl Hr E1 Hi Ho E2 q _ Hin) as (id & Hid & A1 & A2).
      rewrite (Hx id f _ Hid) in A2. rewrite Ev in *. destruct (Z.eq_dec (loc_dir loc) f) as [E|E]; [symmetry; auto|]. specialize (A2 E). lra.
    + destruct (Hrun _ Et ltac:(unfold ghosted_type; tauto)) as (sb & E1 & E2 & Hin).
      destruct (neumann_lemma m D r loc f _ sb pre o x _ F Hf Hl Hr E1 Hi Ho E2 q _ Hin) as (id & Hid & A).
      rewrite (Hx id f _ Hid), Ev in A. pose proof (gl_points_info m D r f loc q p F Hf Hl Hr Hp) as (_ & _ & _ & _ & _ & I2 & I3 & _). cbv zeta in I2.
      assert (Hg : crd m f (loc_dir loc) (pc q (loc_dir loc)) - crd m f (loc_dir loc) (pc (inner_of (m_n m f) loc q) (loc_dir loc)) <> 0).
      { intros E. rewrite E, Rabs_R0 in I2. lra. }
      unfold Rdiv in A. apply Rmult_integral in A. destruct A as [A|A]; [lra|]. exfalso. revert A. now apply Rinv_neq_0_compat.
Qed.

Lemma uniform_zero m c f p : convection_at m (fun g _ => c g) f p = 0.
Proof. unfold convection_at, momentum_flux. unfold zsum. apply sumR_zero. intros d Hd. unfold Rdiv. rewrite Rminus_diag_eq by reflexivity. ring. Qed.

(** * Integrals *)
Lemma points_In m f p : In p (points m f) <-> interior (m_n m f) p.
Proof. destruct p as [[i j] k]. unfold points. rewrite box_In. reflexivity. Qed.

Lemma telescope_points m f d (A g : pt -> R) : (0 <= d < 3)%Z -> (forall p s, A (shift p d s) = A p) ->
  sumR (fun p => A p * (g p - g (shift p d (-1)))) (points m f)
  = sumR (fun p => A p * g p) (filter (fun p => (pc p d =? m_n m f d - 1)%Z) (points m f))
  - sumR (fun p => A p * g (shift p d (-1))) (filter (fun p => (pc p d =? 0)%Z) (points m f)).
Proof.
  intros Hf HA.
  rewrite (sumR_ext _ (fun p => A p * g p - A p * g (shift p d (-1)))) by (intros; lra). rewrite sumR_minus.
  rewrite (split_sum (fun p => (pc p d =? m_n m f d - 1)%Z) (fun p => A p * g p)).
  rewrite (split_sum (fun p => (pc p d =? 0)%Z) (fun p => A p * g (shift p d (-1)))).
  assert (E : sumR (fun p => A p * g (shift p d (-1))) (filter (fun p => negb (pc p d =? 0)%Z) (points m f))
    = sumR (fun p => A p * g p) (filter (fun p => negb (pc p d =? m_n m f d - 1)%Z) (points m f))); [|lra].
  rewrite (sumR_ext _ (fun p => (fun q => A q * g q) (shift p d (-1)))) by (intros; now rewrite HA).
  rewrite <- (sumR_map (fun p => shift p d (-1)) (fun q => A q * g q)).
  assert (Inv : forall p s t, (s + t = 0)%Z -> shift (shift p d s) d t = p).
  { intros p s t Hst. apply pt_ext. intros e He. rewrite !pc_shift by lia. destruct (Z.eqb_spec e d) as [->|]; [rewrite Z.eqb_refl; lia|reflexivity]. }
  apply sumR_perm. apply NoDup_Permutation.
  - apply FinFun.Injective_map_NoDup; [|apply NoDup_filter, box_NoDup]. intros p p' Ep. rewrite <- (Inv p (-1)%Z 1%Z), <- (Inv p' (-1)%Z 1%Z) by lia. now rewrite Ep.
  - apply NoDup_filter, box_NoDup.
  - intros q. rewrite in_map_iff, filter_In, points_In. split.
    + intros (p & <- & Hp). apply filter_In in Hp. destruct Hp as [Hp Hn]. apply points_In in Hp. rewrite interior_pc in *.
      pose proof (Hp d Hf). split; [|rewrite pc_shift by lia; rewrite Z.eqb_refl; lia].
      intros e He. rewrite pc_shift by lia. specialize (Hp e He). destruct (Z.eqb_spec e d) as [->|]; lia.
    + intros [Hq Hn]. exists (shift q d 1). split; [apply Inv; lia|]. apply filter_In. rewrite points_In. rewrite interior_pc in *.
      pose proof (Hq d Hf). split; [|rewrite pc_shift by lia; rewrite Z.eqb_refl; lia].
      intros e He. rewrite pc_shift by lia. specialize (Hq e He). destruct (Z.eqb_spec e d) as [->|]; lia.
Qed.

Lemma area_shift m f d p s : (0 <= d < 3)%Z -> point_area m f d (shift p d s) = point_area m f d p.
Proof.
  intros Hd. unfold point_area. destruct (pt_cases d Hd) as [->|[->| ->]]; cbn [Z.eqb Pos.eqb]; rewrite !pc_shift by lia; reflexivity.
Qed.
Lemma volume_area m D f d p : mfacts m D -> (0 <= f < m_dim m)%Z -> interior (m_n m f) p -> (0 <= d < m_dim m)%Z ->
  wid m f d (pc p d) <> 0 /\ point_volume m f p / wid m f d (pc p d) = point_area m f d p.
Proof.
  intros F Hf Hp Hd. pose proof (mf_dim _ _ F) as Hdim. rewrite interior_pc in Hp.
  assert (W : wid m f d (pc p d) <> 0). { pose proof (Hp d ltac:(lia)). destruct (mf_wid _ _ F f d (pc p d) Hf Hd ltac:(lia)) as [_ W]. intros E. rewrite E in W. lra. }
  split; [exact W|]. unfold point_volume, point_area.
  destruct (pt_cases d ltac:(lia)) as [->|[->| ->]]; cbn [Z.eqb Pos.eqb]; [destruct (_ =? 3)%Z; field; exact W..|].
  replace (m_dim m =? 3)%Z with true by lia. field. exact W.
Qed.

Lemma total_momentum m D u f : mfacts m D -> (0 <= f < m_dim m)%Z ->
  sumR (fun p => point_volume m f p * convection_at m u f p) (points m f) = momentum_outflow m u f.
Proof.
  intros F Hf. pose proof (mf_dim _ _ F) as Hdim.
  rewrite (sumR_ext _ (fun p => zsum (fun d => point_area m f d p * (momentum_flux u f d p - momentum_flux u f d (shift p d (-1)))) 0 (m_dim m))).
  - unfold momentum_outflow, zsum. rewrite sumR_swap. apply sumR_ext. intros d Hd. apply zrange_In in Hd.
    apply (telescope_points m f d (point_area m f d) (momentum_flux u f d)); [lia|]. intros; apply area_shift; lia.
  - intros p Hp. apply points_In in Hp. unfold convection_at, zsum. rewrite <- sumR_scal. apply sumR_ext. intros d Hd. apply zrange_In in Hd.
    destruct (volume_area m D f d p F Hf Hp Hd) as [W E]. rewrite <- E. field. exact W.
Qed.

Lemma NoDup_snd {A B} (f : A) (l : list (A * B)) : NoDup l -> (forall a, In a l -> fst a = f) -> NoDup (map snd l).
Proof.
  induction l as [|a t IH]; intros N E; [constructor|]. apply NoDup_cons_iff in N as [Na Nt]. cbn [map]. constructor; [|apply IH; auto; intros; apply E; now right].
  intros Hin. apply in_map_iff in Hin. destruct Hin as (b & Eb & Hb). apply Na. replace a with b; auto.
  pose proof (E a (or_introl eq_refl)). pose proof (E b (or_intror Hb)). destruct a, b. cbn in *. congruence.
Qed.
Lemma integral_points m D f y (h : pt -> R) : mfacts m D -> (0 <= f < m_dim m)%Z ->
  (forall id p, nthZ (packed_layout (m_dim m) D) id = Some (f, p) -> y id = h p) ->
  integral m D f y = sumR (fun p => point_volume m f p * h p) (points m f).
Proof.
  intros F Hf Hy. unfold integral. assert (DA : dec_all (m_dim m) D (m_n m)) by (intros g Hg; apply (mf_dec _ _ F); auto).
  assert (L : lenZ (packed_layout (m_dim m) D) = n_velocity m) by (apply packed_layout_len; auto; [intros; apply (mf_sizes _ _ F); auto|]; pose proof (mf_dim _ _ F); lia).
  rewrite <- L. set (G := fun gp : Z * pt => if (fst gp =? f)%Z then point_volume m f (snd gp) * h (snd gp) else 0).
  rewrite (sum_layout (fun _ => G) (packed_layout (m_dim m) D) G).
  - rewrite (split_sum (fun gp => (fst gp =? f)%Z) G).
    rewrite (sumR_zero G (filter (fun a => negb (fst a =? f)%Z) _)).
    2: { intros a Ha. apply filter_In in Ha. unfold G. destruct (fst a =? f)%Z; [destruct Ha; discriminate|reflexivity]. }
    rewrite (sumR_ext G (fun gp => (fun p => point_volume m f p * h p) (snd gp))).
    2: { intros a Ha. apply filter_In in Ha. unfold G. destruct Ha as [_ ->]. reflexivity. }
    rewrite Rplus_0_r. rewrite <- (sumR_map snd (fun p => point_volume m f p * h p)). apply sumR_perm. apply NoDup_Permutation.
    + assert (N : NoDup (filter (fun gp => (fst gp =? f)%Z) (packed_layout (m_dim m) D))) by (apply NoDup_filter; eapply packed_layout_NoDup; eauto).
      assert (E : forall a, In a (filter (fun gp => (fst gp =? f)%Z) (packed_layout (m_dim m) D)) -> fst a = f) by (intros a Ha; apply filter_In in Ha; lia).
      exact (NoDup_snd f _ N E).
    + apply box_NoDup.
    + intros p. rewrite in_map_iff, points_In. split.
      * intros ([g q] & <- & Ha). apply filter_In in Ha. destruct Ha as [Ha Eg]. cbn [fst snd] in *. apply (packed_layout_In _ _ (m_n m)) in Ha; auto.
        destruct Ha as [_ Ha]. replace f with g by lia. exact Ha.
      * intros Hp. exists (f, p). split; [reflexivity|]. apply filter_In. split; [|cbn; lia]. apply (packed_layout_In _ _ (m_n m)); auto.
  - auto.
  - intros id [g p] Hid. change (Z * Z * Z)%type with pt in *. rewrite Hid. unfold G. cbn [fst snd]. destruct (Z.eqb_spec g f) as [->|]; [|reflexivity]. now rewrite (Hy id p Hid).
Qed.

(** * Periodic in every direction *)
Lemma layer_perm m f d : (0 <= d < 3)%Z -> (1 <= m_n m f d)%Z ->
  Permutation (map (fun p => setc p d (m_n m f d - 1)) (filter (fun p => (pc p d =? 0)%Z) (points m f)))
              (filter (fun p => (pc p d =? m_n m f d - 1)%Z) (points m f)).
Proof.
  intros Hd Hn. apply NoDup_Permutation.
  - assert (G : forall l, NoDup l -> (forall p, In p l -> pc p d = 0%Z) -> NoDup (map (fun p => setc p d (m_n m f d - 1)) l)).
    { induction l as [|p t IH]; intros Hnd Hz; [constructor|]. cbn [map]. apply NoDup_cons_iff in Hnd as [Ha Ht]. constructor.
      - intros Hi. apply in_map_iff in Hi. destruct Hi as (p' & E & Hi). apply Ha. replace p with p'; auto. apply pt_ext. intros e He.
        destruct (Z.eq_dec e d) as [->|Hne]; [rewrite !Hz by (auto; now (left + right)); reflexivity|].
        apply (f_equal (fun z => pc z e)) in E. rewrite !pc_setc in E by lia. replace (e =? d)%Z with false in E by lia. exact E.
      - apply IH; auto. intros; apply Hz; now right. }
    apply G; [apply NoDup_filter, box_NoDup|]. intros p Hp. apply filter_In in Hp. lia.
  - apply NoDup_filter, box_NoDup.
  - intros q. rewrite in_map_iff, filter_In, points_In. split.
    + intros (p & <- & Hp). apply filter_In in Hp. rewrite points_In in Hp. destruct Hp as [Hp H0]. rewrite interior_pc in *.
      pose proof (Hp d ltac:(lia)). split; [|rewrite pc_setc by lia; rewrite Z.eqb_refl; lia]. intros e He. rewrite pc_setc by lia. specialize (Hp e He).
      destruct (Z.eqb_spec e d) as [->|]; lia.
    + intros [Hq Hl]. exists (setc q d 0). rewrite interior_pc in Hq. pose proof (Hq d ltac:(lia)). split.
      * apply pt_ext. intros e He. rewrite !pc_setc by lia. destruct (Z.eqb_spec e d) as [->|]; lia.
      * apply filter_In. rewrite points_In, interior_pc. split; [|rewrite pc_setc by lia; rewrite Z.eqb_refl; lia].
        intros e He. rewrite pc_setc by lia. specialize (Hq e He). destruct (Z.eqb_spec e d) as [->|]; lia.
Qed.

Lemma periodic_momentum m D B x u f : mfacts m D -> extends_box m D B x u -> (0 <= f < m_dim m)%Z ->
  (forall d, (0 <= d < m_dim m)%Z -> periodic_dir m d = true) -> momentum_outflow m u f = 0.
Proof.
  intros F (_ & X) Hf Hper. pose proof (mf_dim _ _ F) as Hdim. unfold momentum_outflow, zsum. apply sumR_zero. intros d Hd. apply zrange_In in Hd.
  assert (Hn : forall g e, (0 <= g < m_dim m)%Z -> (0 <= e < 3)%Z -> m_n m g e = m_n m 3 e).
  { intros g e Hg He. destruct (Z.eq_dec g e) as [<-|Hne]; [|now apply (mf_n_oth _ _ F)]. pose proof (mf_n_own _ _ F g Hg) as Ho. rewrite (Hper g Hg) in Ho. exact Ho. }
  assert (Hpos : forall e, (0 <= e < 3)%Z -> (1 <= m_n m 3 e)%Z) by (intros; eapply (sizes_pos m D 3); eauto).
  assert (E : forall g q q', (0 <= g < m_dim m)%Z -> (forall e, (0 <= e < 3)%Z -> (-1 <= pc q e <= m_n m 3 e)%Z /\ (-1 <= pc q' e <= m_n m 3 e)%Z /\
      ((pc q e) mod (m_n m 3 e) = (pc q' e) mod (m_n m 3 e))%Z /\ ((m_dim m <= e)%Z -> pc q e = 0%Z /\ pc q' e = 0%Z)) -> u g q = u g q').
  { intros g q q' Hg H.
    assert (I : forall z, (forall e, (0 <= e < 3)%Z -> (-1 <= pc z e <= m_n m 3 e)%Z /\ ((m_dim m <= e)%Z -> pc z e = 0%Z)) -> u g z = u g (image (m_n m g) z)).
    { intros z Hz. apply X; auto.
      - apply in_frame_pc. intros e He. rewrite Hn by auto. apply Hz; auto.
      - apply has_image_pc. intros e He Ho. destruct (Z_lt_ge_dec e (m_dim m)); [apply Hper; lia|]. destruct (Hz e He) as [_ Z0]. rewrite Z0 in Ho by lia.
        unfold outside in Ho. rewrite Hn in Ho by auto. pose proof (Hpos e He). lia. }
    rewrite (I q), (I q') by (intros e He; destruct (H e He) as (A1 & A2 & A3 & A4); split; auto; intros; apply A4; auto).
    f_equal. apply pt_ext. intros e He. rewrite !pc_image by auto. unfold wrap. rewrite Hn by auto. apply H; auto. }
  apply Rminus_diag_eq. symmetry.
  rewrite (sumR_ext _ (fun p => (fun q => point_area m f d q * momentum_flux u f d q) (setc p d (m_n m f d - 1)))).
  - rewrite <- (sumR_map (fun p => setc p d (m_n m f d - 1)) (fun q => point_area m f d q * momentum_flux u f d q)).
    apply sumR_perm. apply layer_perm; [lia|]. rewrite Hn by lia. apply Hpos. lia.
  - intros p Hp. apply filter_In in Hp. destruct Hp as [Hp H0]. apply points_In in Hp. rewrite interior_pc in Hp.
    assert (H0' : pc p d = 0%Z) by lia. clear H0. pose proof (Hpos d ltac:(lia)) as Hnd.
    assert (Ea : point_area m f d (setc p d (m_n m f d - 1)) = point_area m f d p).
    { rewrite <- (area_shift m f d p (m_n m f d - 1)) by lia. unfold shift. rewrite H0'. reflexivity. }
    rewrite Ea. f_equal. unfold momentum_flux.
    assert (Hb : forall e, (0 <= e < 3)%Z -> (0 <= pc p e < m_n m 3 e)%Z /\ ((m_dim m <= e)%Z -> pc p e = 0%Z)).
    { intros e He. pose proof (Hp e He) as A. rewrite Hn in A by auto. split; auto. intros Hge. assert (e = 2%Z /\ m_dim m = 2%Z) as [-> E2] by lia.
      pose proof (proj1 (mf_flat _ _ F f (or_introl Hf) E2)) as A1. rewrite (Hn f 2%Z) in A1 by auto. lia. }
    rewrite Hn by lia.
    assert (M1 : ((-1) mod m_n m 3 d = (m_n m 3 d - 1) mod m_n m 3 d)%Z) by (replace (m_n m 3 d - 1)%Z with (-1 + 1 * m_n m 3 d)%Z by lia; now rewrite Z_mod_plus_full).
    assert (M2 : (0 mod m_n m 3 d = m_n m 3 d mod m_n m 3 d)%Z) by (rewrite Z_mod_same_full; reflexivity).
    f_equal; f_equal; f_equal; apply E; auto; intros e He; destruct (Hb e He) as [A1 A2]; rewrite ?pc_shift2, ?pc_setc by lia;
      repeat match goal with |- context [(?a =? ?b)%Z] => destruct (Z.eqb_spec a b); try subst end; try lia; try (rewrite ?H0'; repeat split; intros; lia || congruence || auto).
  all: replace (m_n m 3 d - 1 + 1)%Z with (m_n m 3 d) by lia; exact M2.
Qed.
