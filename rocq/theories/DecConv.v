(** The convection operators of two decompositions agree when nothing flows
    through the boundaries that are not periodic. *)
From Verif Require Import Prelude ZSum RSum TypesModel GridModel IndexModel IndexSpec BoundaryModel BoundarySpec BoundaryProof BStateProof
  OperatorModel OperatorSpec MatModel NSModel NSSpec ConvModel ConvSpec ConvProof ConvTotal ConvProps IndexProof GradProof NSPin DriverProps DecSpec.
Local Open Scope R_scope.

Lemma dirichlet_value sb ops : sb_type sb = DIRICHLET -> (sb_loc sb / 2 = sb_field sb)%Z ->
  forall p, (dir_eq sb p /\ gi_value p = sb_value sb) \/ has_ics ops -> gi_value (fold_left (pstep sb) ops p) = sb_value sb.
Proof.
  intros Ht Hl. assert (El : (sb_loc sb / 2 =? sb_field sb)%Z = true) by lia.
  induction ops as [|o t IH]; intros p H; cbn [fold_left].
  - destruct H as [[_ H]|[v []]]. exact H.
  - apply IH. destruct H as [[He Hv]|[v [->|H]]].
    + left. destruct o; cbn [pstep].
      * unfold setGhostICsKernel, dir_eq. rewrite Ht, El. cbn. split; [auto|]. ring.
      * unfold updateEqsKernel. rewrite Ht. auto.
      * split; [exact He|]. unfold dir_eq in He. rewrite El in He. destruct He as [E0 E1]. cbn. rewrite E0, E1. ring.
    + left. cbn [pstep]. unfold setGhostICsKernel, dir_eq. rewrite Ht, El. cbn. split; [auto|]. ring.
    + right. exists v. exact H.
Qed.

Lemma wall_value m D types values h B x u f loc q : mfacts m D -> bc_fits m types -> impermeable m types values ->
  boundary_after m D types values h B -> has_ics h -> extends m D B x u ->
  (0 <= f < m_dim m)%Z -> (0 <= loc < m_dim m * 2)%Z -> (loc / 2 = f)%Z -> periodic_dir m f = false -> is_ghost (m_n m f) loc q -> u f q = 0.
Proof.
  intros F Hb Hi HB Hh HX Hf Hl Hlf Hp Hg. destruct (Hi f loc Hf Hl Hlf Hp) as [Et Ev].
  destruct (pure_ghost m D types values f loc q F Hb Hf Hl ltac:(rewrite Et; discriminate) Hg) as (r & p & Hr & _ & G).
  destruct HX as (_ & _ & X3). rewrite (X3 _ _ _ (G h B HB)).
  rewrite dirichlet_value; unfold bsb; rewrite ?Et; cbn; auto.
Qed.

Definition corner0 (m : mesh) (u : Z -> pt -> R) (f : Z) (q : pt) : R :=
  if ((1 <? n_outside (m_n m f) q)%Z && negb (has_image (m_n m f) (periodic_dir m) q))%bool then 0 else u f q.

Lemma corner0_extends m D types values h B x u : mfacts m D -> bc_fits m types -> boundary_after m D types values h B ->
  extends_box m D B x u -> extends_box m D B x (corner0 m u).
Proof.
  intros F Hb HB ((X1 & X2 & X3) & X4). pose proof (mf_dim _ _ F) as Hdim.
  assert (Hn : forall f d, (0 <= f < m_dim m)%Z -> (0 <= d < 3)%Z -> (1 <= m_n m f d)%Z) by (intros; eapply sizes_pos; eauto).
  assert (In0 : forall f q, (0 <= f < m_dim m)%Z -> interior (m_n m f) q -> corner0 m u f q = u f q).
  { intros f q Hf Hq. unfold corner0. destruct (interior_n_outside (m_n m f) q Hq) as (_ & -> & _). reflexivity. }
  assert (Im : forall f q, (0 <= f < m_dim m)%Z -> has_image (m_n m f) (periodic_dir m) q = true -> corner0 m u f q = u f q).
  { intros f q Hf Hq. unfold corner0. rewrite Hq, andb_false_r. reflexivity. }
  assert (X : forall f q, (0 <= f < m_dim m)%Z -> in_frame (m_n m f) q -> has_image (m_n m f) (periodic_dir m) q = true -> corner0 m u f q = corner0 m u f (image (m_n m f) q)).
  { intros f q Hf Hq Hi. rewrite Im, In0 by (auto; apply (image_in m D f q F Hf)). now apply X4. }
  split; [split; [|split]|]; auto.
  - intros id f p Hid. destruct (velocity_row m D id f p F Hid) as (Hf & Hp & _). rewrite In0 by auto. auto.
  - intros f q v Hv. rewrite <- (X3 f q v Hv).
    destruct (ghost_value_pure _ _ _ _ _ _ _ _ _ F Hb HB Hv) as (r & loc & p & Hr & Hf & Hl & Hne & Hp & _).
    assert (Hk : In (st_of q) (map fst (gl_points m D r f loc))) by (apply in_map_iff; eexists; split; [|exact Hp]; reflexivity).
    apply gl_points_In in Hk; auto. destruct Hk as [G L].
    destruct (ghost_frame (m_n m f) loc q (periodic_dir m) ltac:(lia) ltac:(auto) G) as (_ & E & _). unfold corner0. rewrite E. reflexivity.
Qed.

Lemma outside2 n q d e : (0 <= d < 3)%Z -> (0 <= e < 3)%Z -> d <> e -> outside (n d) (pc q d) = true -> outside (n e) (pc q e) = true -> (1 <? n_outside n q)%Z = true.
Proof.
  intros Hd He Hne O1 O2. destruct q as [[i j] k]. unfold n_outside.
  destruct (pt_cases d Hd) as [->|[->| ->]], (pt_cases e He) as [->|[->| ->]]; try lia; cbn in O1, O2; rewrite ?O1, ?O2; repeat match goal with |- context [if ?b then _ else _] => destruct b end; reflexivity.
Qed.
Lemma no_image n per q d : (0 <= d < 3)%Z -> outside (n d) (pc q d) = true -> per d = false -> has_image n per q = false.
Proof.
  intros Hd O P. destruct q as [[i j] k]. unfold has_image. destruct (pt_cases d Hd) as [->|[->| ->]]; cbn in O; rewrite O, P; cbn; rewrite ?andb_false_r; reflexivity.
Qed.

(** At a point q of component d outside of a wall normal to d, possibly one
    step beyond the end of a periodic direction f. *)
Lemma wall_or_corner m D types values h B x u d loc f q : mfacts m D -> bc_fits m types -> impermeable m types values ->
  boundary_after m D types values h B -> has_ics h -> extends_box m D B x u ->
  (0 <= d < m_dim m)%Z -> (0 <= loc < m_dim m * 2)%Z -> (loc / 2 = d)%Z -> periodic_dir m d = false -> (0 <= f < m_dim m)%Z -> f <> d ->
  pc q d = ghost_layer (m_n m d) loc -> (0 <= pc q f <= m_n m d f)%Z -> (forall e, (0 <= e < 3)%Z -> e <> d -> e <> f -> (0 <= pc q e < m_n m d e)%Z) ->
  corner0 m u d q = 0.
Proof.
  intros F Hb Hi HB Hh HX Hd Hl Hld Hp Hf Hfd Qd Qf Qe. pose proof (mf_dim _ _ F) as Hdim.
  pose proof (corner0_extends m D types values h B x u F Hb HB HX) as [HX' _].
  assert (Hn : forall e, (0 <= e < 3)%Z -> (1 <= m_n m d e)%Z) by (intros; eapply sizes_pos; eauto).
  destruct (layers (m_n m d) loc) as (Li & Lg & Ld & Lo); [unfold loc_dir; rewrite Hld; apply Hn; lia|]. unfold loc_dir in *. rewrite Hld in *.
  destruct (Z.eq_dec (pc q f) (m_n m d f)) as [E|E].
  - assert (O1 : outside (m_n m d d) (pc q d) = true) by (unfold outside; rewrite Qd; unfold ghost_layer, loc_dir; rewrite Hld; destruct (_ =? _)%Z; lia).
    unfold corner0. rewrite (outside2 (m_n m d) q d f) by (auto; try lia; unfold outside; lia).
    rewrite (no_image (m_n m d) (periodic_dir m) q d) by (auto; lia). reflexivity.
  - eapply (wall_value m D types values h B x _ d loc q); eauto. split; unfold loc_dir; rewrite Hld; [exact Qd|].
    rewrite interior_pc. intros e He. rewrite pc_setc by lia. destruct (Z.eqb_spec e d) as [->|Ne]; [lia|].
    destruct (Z.eq_dec e f) as [->|Nf]; [lia|]. auto.
Qed.

Lemma quiet_impermeable m D D' types values h B x u f p : mfacts m D -> bc_fits m types -> impermeable m types values ->
  boundary_after m D types values h B -> has_ics h -> extends_box m D B x u -> (0 <= f < m_dim m)%Z -> interior (m_n m f) p ->
  quiet_walls m D' (corner0 m u) f p.
Proof.
  intros F Hb Hi HB Hh HX Hf Hp d Hd Hdf Hper. right. pose proof (mf_dim _ _ F) as Hdim.
  rewrite interior_pc in Hp.
  assert (Sf : (m_n m f f <= m_n m d f)%Z) by (rewrite (mf_n_own _ _ F f Hf), (mf_n_oth _ _ F d f) by lia; destruct (periodic_dir m f); lia).
  assert (Sd : (m_n m d d = m_n m f d - 1)%Z) by (rewrite (mf_n_own _ _ F d Hd), (mf_n_oth _ _ F f d), Hper by lia; lia).
  assert (Se : forall e, (0 <= e < 3)%Z -> e <> d -> e <> f -> m_n m f e = m_n m d e) by (intros e He H1 H2; rewrite (mf_n_oth _ _ F f e), (mf_n_oth _ _ F d e) by lia; reflexivity).
  pose proof (Hp f ltac:(lia)) as Pf.
  assert (L0 : ghost_layer (m_n m d) (2 * d) = (-1)%Z) by (unfold ghost_layer; replace ((2 * d) mod 2)%Z with 0%Z by (rewrite Z.mul_comm, Z_mod_mult; reflexivity); reflexivity).
  assert (L1 : ghost_layer (m_n m d) (2 * d + 1) = m_n m d d).
  { unfold ghost_layer, loc_dir. replace ((2 * d + 1) mod 2)%Z with 1%Z by (rewrite Z.add_comm, Z.mul_comm, Z_mod_plus_full; reflexivity).
    replace ((2 * d + 1) / 2)%Z with d by (rewrite Z.add_comm, Z.mul_comm, Z_div_plus_full by lia; reflexivity). reflexivity. }
  assert (V0 : (2 * d / 2 = d)%Z) by (rewrite Z.mul_comm; apply Z_div_mult_full; lia).
  assert (V1 : ((2 * d + 1) / 2 = d)%Z) by (rewrite Z.add_comm, Z.mul_comm, Z_div_plus_full by lia; reflexivity).
  split; intros Ed; left; split.
  - eapply (wall_or_corner m D types values h B x u d (2 * d) f); eauto; try lia; rewrite ?pc_shift2 by lia; rewrite ?Z.eqb_refl; try lia.
    + replace (f =? d)%Z with false by lia. lia.
    + intros e He N1 N2. rewrite pc_shift2 by lia. replace (e =? d)%Z with false by lia. rewrite <- Se by auto. auto.
  - eapply (wall_or_corner m D types values h B x u d (2 * d) f); eauto; try lia.
    + rewrite !pc_shift2 by lia. rewrite Z.eqb_refl. replace (d =? f)%Z with false by lia. lia.
    + rewrite !pc_shift2 by lia. rewrite Z.eqb_refl. replace (f =? d)%Z with false by lia. lia.
    + intros e He N1 N2. rewrite !pc_shift2 by lia. replace (e =? d)%Z with false by lia. replace (e =? f)%Z with false by lia. rewrite <- Se by auto. auto.
  - eapply (wall_or_corner m D types values h B x u d (2 * d + 1) f); eauto; try lia.
    intros e He N1 N2. rewrite <- Se by auto. auto.
  - eapply (wall_or_corner m D types values h B x u d (2 * d + 1) f); eauto; try lia.
    + rewrite !pc_shift2 by lia. replace (d =? f)%Z with false by lia. lia.
    + rewrite !pc_shift2 by lia. rewrite Z.eqb_refl. lia.
    + intros e He N1 N2. rewrite !pc_shift2 by lia. replace (e =? f)%Z with false by lia. rewrite <- Se by auto. auto.
Qed.

Lemma convection_inv m D B x y : convection m D B x = Ok y -> exists C', convectionMult m D (createConvection m D) B x = Ok (y, C').
Proof. unfold convection. destruct (convectionMult _ _ _ _ _) as [[y' C']| |]; cbn; intros E; try discriminate. injection E as ->. eauto. Qed.

Theorem conv_agree_impermeable m D1 D2 types values : mesh_setup m D1 -> mesh_setup m D2 -> bc_fits m types -> impermeable m types values ->
  conv_agree m D1 D2 types values (convection m D1) (convection m D2).
Proof.
  intros Hs1 Hs2 Hb Hi h1 h2 B1 B2 x1 x2 y1 y2 HB1 HB2 Hh Hics Hx E1 E2 id1 id2 f p I1 I2.
  destruct (convection_inv _ _ _ _ _ E1) as (C1 & E1'). destruct (convection_inv _ _ _ _ _ E2) as (C2 & E2').
  pose proof (setup_facts _ _ Hs1) as F1.
  destruct (extends_box_exists m D1 types values h1 B1 x1 F1 Hb HB1) as [u HX].
  pose proof (corner0_extends m D1 types values h1 B1 x1 u F1 Hb HB1 HX) as HX'.
  destruct (velocity_row m D1 id1 f p F1 I1) as (Hf & Hp & _).
  eapply (conv_decomposition m D1 D2 types values _ _ h1 h2 B1 B2 x1 x2 y1 y2 C1 C2 id1 id2 f p (corner0 m u)); eauto using cs_new;
    eapply (quiet_impermeable m D1 _ types values h1 B1 x1 u f p); eauto.
Qed.

(** On one decomposition they agree for all boundaries. *)
Theorem conv_agree_same m D types values : mesh_setup m D -> bc_fits m types -> conv_agree m D D types values (convection m D) (convection m D).
Proof.
  intros Hs Hb h1 h2 B1 B2 x1 x2 y1 y2 HB1 HB2 Hh Hics Hx E1 E2 id1 id2 f p I1 I2.
  destruct (convection_inv _ _ _ _ _ E1) as (C1 & E1'). destruct (convection_inv _ _ _ _ _ E2) as (C2 & E2').
  pose proof (setup_facts _ _ Hs) as F.
  destruct (extends_box_exists m D types values h1 B1 x1 F Hb HB1) as [u HX].
  pose proof (extends_both m D D types values h1 h2 B1 B2 x1 x2 u F F Hb HB1 HB2 Hh Hx HX) as HX2.
  destruct (velocity_row m D id1 f p F I1) as (Hf & Hp & _ & r & Hr & Hl).
  rewrite (conv_rank_value m D types values _ h1 B1 x1 u y1 C1 id1 f p r Hs Hb (cs_new _ _ _ _) HB1 HX E1' I1 Hr Hl).
  now rewrite (conv_rank_value m D types values _ h2 B2 x2 u y2 C2 id2 f p r Hs Hb (cs_new _ _ _ _) HB2 HX2 E2' I2 Hr Hl).
Qed.

Lemma impermeable_neumann m types values : bc_fits m types -> impermeable m types values -> no_normal_neumann m types.
Proof.
  intros Hb Hi f Hf. assert (V0 : (2 * f / 2 = f)%Z) by (rewrite Z.mul_comm; apply Z_div_mult_full; lia).
  assert (V1 : ((2 * f + 1) / 2 = f)%Z) by (rewrite Z.add_comm, Z.mul_comm, Z_div_plus_full by lia; reflexivity).
  assert (X : forall loc, (0 <= loc < m_dim m * 2)%Z -> (loc / 2 = f)%Z -> types f loc <> NEUMANN).
  { intros loc Hl Hlf. destruct (periodic_dir m f) eqn:Hp.
    - destruct (Hb f loc Hf Hl) as [_ Hper]. unfold loc_dir in Hper. rewrite Hlf in Hper. rewrite (proj2 Hper Hp). discriminate.
    - destruct (Hi f loc Hf Hl Hlf Hp) as [-> _]. discriminate. }
  split; apply X; lia.
Qed.

Lemma convection_total m D types values h B x : mesh_setup m D -> bc_fits m types -> boundary_after m D types values h B -> is_ok (convection m D B x).
Proof.
  intros Hs Hb HB. destruct (conv_in_bounds m D types values _ h B x Hs Hb (cs_new _ _ _ _) HB) as (y & C' & E). exists y. unfold convection. rewrite E. reflexivity.
Qed.

(** A system that can be solved for every right-hand side has a solver. *)
Lemma solver_exists n A : (0 <= n)%Z -> (forall b, exists x, solves n A x b) -> exists S : vec -> vec, forall b, solves n A (S b) b.
Proof.
  intros Hn H.
  assert (X : forall k, exists Y : Z -> vec, forall i, (0 <= i < Z.of_nat k)%Z -> solves n A (Y i) (fun l => if (l =? i)%Z then 1 else 0)).
  { induction k as [|k [Y IH]]; [exists (fun _ _ => 0); lia|].
    destruct (H (fun l => if (l =? Z.of_nat k)%Z then 1 else 0)) as [x Hx].
    exists (fun i => if (i =? Z.of_nat k)%Z then x else Y i). intros i Hi. destruct (Z.eqb_spec i (Z.of_nat k)) as [->|Ne]; [exact Hx|apply IH; lia]. }
  destruct (X (Z.to_nat n)) as [Y HY]. exists (fun b l => zsum (fun i => b i * Y i l) 0 n). intros b l Hl. unfold mvec.
  assert (E : zsum (fun j => A l j * zsum (fun i => b i * Y i j) 0 n) 0 n = zsum (fun i => b i * mvec n A (Y i) l) 0 n).
  { unfold mvec, zsum. transitivity (sumR (fun j => sumR (fun i => b i * (A l j * Y i j)) (zrange 0 n)) (zrange 0 n)).
    - apply sumR_ext. intros j _. rewrite <- sumR_scal. apply sumR_ext. intros i _. ring.
    - rewrite sumR_swap. apply sumR_ext. intros i _. rewrite <- sumR_scal. reflexivity. }
  rewrite E. rewrite (zsum_ext _ (fun i => if (i =? l)%Z then b i else 0)); [now apply (zsum_single l)|].
  intros i Hi. rewrite (HY i ltac:(lia) l Hl). rewrite (Z.eqb_sym l i). destruct (i =? l)%Z; ring.
Qed.
