(** Two runs whose fields are images of each other: the general argument. *)
From Coq Require Import Lia ZifyBool List Lra.
Import ListNotations.
From Verif Require Import Prelude ZSum RSum TypesModel GridModel GridSpec GridProof MeshProof
  IndexModel IndexSpec IndexProof BoundaryModel BoundarySpec BoundaryProof OperatorModel OperatorSpec OperatorProof BStateProof LapProof DivProof GradProof
  AdjProof SymProof MatModel BnModel NSModel NSSpec NSProof NSPin LinAlg NSProps UniqueProof UniqueProps OperatorProps AlgebraProps
  ConvModel ConvSpec ConvProof ConvValue ConvTotal ConvProps EnergySpec EnergyProof EnergyRun IbpmProps DecSpec DecProof DecConv SteadySpec SteadyProof SimSpec SimOne.
Local Open Scope R_scope.

Section Sim.
Variables (M : fmap) (mA mB : mesh) (DA DB : dec) (tyA tyB : Z -> Z -> bctype) (vaA vaB : Z -> Z -> R) (PA PB : nspar) (kap : R).
Let sg := fm_sg M.
Let pi := fm_pi M.
Let sp := fm_pt M.
Let T := map_velocity M.
Hypotheses (HsA : mesh_setup mA DA) (HsB : mesh_setup mB DB) (HbA : bc_fits mA tyA) (HbB : bc_fits mB tyB).
Let FA : mfacts mA DA := setup_facts _ _ HsA.
Let FB : mfacts mB DB := setup_facts _ _ HsB.
(** The map of points. *)
Hypothesis Hpt : forall f p, (0 <= f < m_dim mB)%Z -> interior (m_n mB f) p -> (0 <= pi f < m_dim mA)%Z /\ interior (m_n mA (pi f)) (sp f p).
Hypothesis Hcell : forall p, interior (m_n mB 3) p -> interior (m_n mA 3) (sp 3%Z p).
Hypothesis Hrep : forall u, repeats mA u -> repeats mB (T u).
(** The operators. *)
Hypothesis Hlap : forall u f p, repeats mA u -> (0 <= f < m_dim mB)%Z -> interior (m_n mB f) p ->
  p_nu PB * laplacian_at mB f (T u) p = kap * (sg f * (p_nu PA * laplacian_at mA (pi f) u (sp f p))).
Hypothesis Hgrad : forall pr f p, (0 <= f < m_dim mB)%Z -> interior (m_n mB f) p ->
  gradient_at mB false (map_pressure M pr) f p = kap * (sg f * gradient_at mA false pr (pi f) (sp f p)).
Hypothesis Hflux : forall u, repeats mA u -> (forall q, interior (m_n mA 3) q -> net_flux mA false u q = 0) ->
  forall p, interior (m_n mB 3) p -> net_flux mB false (T u) p = 0.
(** The boundary conditions. *)
Hypothesis Hghost : forall f loc q, (0 <= f < m_dim mB)%Z -> (0 <= loc < m_dim mB * 2)%Z -> periodic_dir mB (loc_dir loc) = false -> is_ghost (m_n mB f) loc q ->
  (sg f = 0 /\ (tyB f loc = CONVECTIVE \/ vaB f loc = 0)) \/
  (tyB f loc = NEUMANN /\ vaB f loc = 0 /\ sp f q = sp f (inner_of (m_n mB f) loc q)) \/
  exists loc', (0 <= pi f < m_dim mA)%Z /\ (0 <= loc' < m_dim mA * 2)%Z /\ periodic_dir mA (loc_dir loc') = false /\ is_ghost (m_n mA (pi f)) loc' (sp f q) /\
    inner_of (m_n mA (pi f)) loc' (sp f q) = sp f (inner_of (m_n mB f) loc q) /\ tyB f loc = tyA (pi f) loc' /\ (loc / 2 =? f)%Z = (loc' / 2 =? pi f)%Z /\
    let gB := crd mB f (loc_dir loc) (pc q (loc_dir loc)) - crd mB f (loc_dir loc) (pc (inner_of (m_n mB f) loc q) (loc_dir loc)) in
    let gA := crd mA (pi f) (loc_dir loc') (pc (sp f q) (loc_dir loc')) - crd mA (pi f) (loc_dir loc') (pc (inner_of (m_n mA (pi f)) loc' (sp f q)) (loc_dir loc')) in
    match tyB f loc with
    | DIRICHLET => vaB f loc = sg f * vaA (pi f) loc'
    | NEUMANN => gB * vaB f loc = sg f * (gA * vaA (pi f) loc')
    | CONVECTIVE => p_dt PB * vaB f loc / gB = p_dt PA * vaA (pi f) loc' / gA
    | _ => True
    end.

(** Vectors that hold images of each other, times k. *)
Definition mv (k : R) (xA xB : vec) : Prop :=
  forall f p, (0 <= f < m_dim mB)%Z -> interior (m_n mB f) p -> xB (idx mB DB f p) = k * (sg f * xA (idx mA DA (pi f) (sp f p))).
Definition mp (xA xB : vec) : Prop := forall p, interior (m_n mB 3) p -> xB (idx mB DB 3 p) = fm_pf M * xA (idx mA DA 3 (sp 3%Z p)).
Lemma mv_maps xA xB : maps_velocity M mA DA mB DB xA xB <-> mv 1 xA xB.
Proof.
  split.
  - intros H f p Hf Hp. destruct (Hpt f p Hf Hp) as [Hf' Hp']. rewrite (H _ _ f p (proj2 (idx_spec mB DB f p FB Hf Hp)) (proj2 (idx_spec mA DA _ _ FA Hf' Hp'))). fold sg. ring.
  - intros H idA idB f p E1 E2. destruct (velocity_row mB DB idB f p FB E1) as (Hf & Hp & -> & _). destruct (velocity_row mA DA idA _ _ FA E2) as (_ & _ & -> & _).
    rewrite (H f p Hf Hp). unfold sg, pi, sp. ring.
Qed.
Lemma mp_maps xA xB : maps_pressure M DA DB xA xB <-> mp xA xB.
Proof.
  split.
  - intros H p Hp. exact (H _ _ p (proj2 (pidx_spec mB DB p FB Hp)) (proj2 (pidx_spec mA DA _ FA (Hcell p Hp)))).
  - intros H idA idB p E1 E2. destruct (pressure_row mB DB idB p FB E1) as (Hp & -> & _). destruct (pressure_row mA DA idA _ FA E2) as (_ & -> & _). exact (H p Hp).
Qed.

(** Boundary calls with such vectors. *)
Inductive mcall : bop -> bop -> Prop :=
| mc_ics v w : mv 1 v w -> mcall (OpICs v) (OpICs w)
| mc_eqs v w : mv 1 v w -> mcall (OpEqs v (p_dt PA)) (OpEqs w (p_dt PB))
| mc_vals v w : mv 1 v w -> mcall (OpVals v) (OpVals w).

Lemma bsb_ghosted m D ty va r f loc : ty f loc <> PERIODIC -> ty f loc <> NOBC ->
  bsb m D ty va r f loc = mkSB (ty f loc) loc f (va f loc) (normal_of loc) (checkBoundaryProc (m_n m f) D r f loc) (gl_points m D r f loc).
Proof. intros H1 H2. unfold bsb. destruct (ty f loc); auto; contradiction. Qed.
Lemma over_normal loc x g dL : g = normal_of loc * dL -> dL <> 0 -> normal_of loc * x / dL = x / g.
Proof. intros -> H. unfold normal_of. destruct (_ =? _)%Z; field; auto. Qed.

Section Ghost.
Variables (rA rB f loc loc' : Z) (q : pt) (pA0 pB0 : ginfo).
Hypotheses (Hf : (0 <= f < m_dim mB)%Z) (Hl : (0 <= loc < m_dim mB * 2)%Z) (HrB : (0 <= rB < nranks DB)%Z).
Hypotheses (Hper : tyB f loc <> PERIODIC) (HinB : In (st_of q, pB0) (gl_points mB DB rB f loc)).
Let tB := inner_of (m_n mB f) loc q.
Lemma target_inner : interior (m_n mB f) tB.
Proof.
  pose proof (gl_points_info mB DB rB f loc q pB0 FB Hf Hl HrB HinB) as (_ & _ & I & _). cbv zeta in I.
  exact (proj1 (proj2 (velocity_row mB DB _ _ _ FB I))).
Qed.
Lemma target_id : gi_tid pB0 = idx mB DB f tB.
Proof. pose proof (gl_points_info mB DB rB f loc q pB0 FB Hf Hl HrB HinB) as (_ & I & _). exact I. Qed.
(** Components that are 0 in the image. *)
Lemma ghost_zero hA hB : sg f = 0 -> (tyB f loc = CONVECTIVE \/ vaB f loc = 0) -> Forall2 mcall hA hB -> forall p, geom p = geom pB0 -> gi_value p = 0 -> gi_a1 p = 0 ->
  gi_value (fold_left (pstep (bsb mB DB tyB vaB rB f loc)) hB p) = 0.
Proof.
  intros Hz Hv Hh. induction Hh as [|oA oB hA hB Ho Hh IH]; intros p Hg V A; [exact V|]. cbn [fold_left]. 
  assert (Z0 : forall v w, mv 1 v w -> w (gi_tid p) = 0).
  { intros v w H. rewrite (geom_tid _ _ Hg), target_id, (H f tB Hf target_inner), Hz. ring. }
  assert (Hn : tyB f loc <> NOBC) by now apply HbB.
  rewrite (bsb_ghosted mB DB tyB vaB rB f loc Hper Hn) in *.
  apply IH; [rewrite pstep_geom; exact Hg|..]; destruct Ho as [v w H|v w H|v w H]; cbn [pstep]; rewrite (Z0 _ _ H);
    unfold setGhostICsKernel, updateEqsKernel, kernelConvective, kernelConvectiveSameDir, kernelConvectiveDiffDir; cbn [sb_type sb_loc sb_field sb_value sb_normal];
    destruct (tyB f loc); try contradiction; destruct Hv as [Hv|Hv]; try discriminate; rewrite ?Hv; destruct (loc / 2 =? f)%Z;
    cbn [set_value set_eq gi_value gi_a0 gi_a1 gi_dL]; rewrite ?V, ?A; unfold Rdiv; ring.
Qed.
(** Planes of symmetry. *)
Lemma plane_coefficients hB : tyB f loc = NEUMANN -> vaB f loc = 0 -> forall p, gi_a0 p = 1 -> gi_a1 p = 0 ->
  gi_a0 (fold_left (pstep (bsb mB DB tyB vaB rB f loc)) hB p) = 1 /\ gi_a1 (fold_left (pstep (bsb mB DB tyB vaB rB f loc)) hB p) = 0.
Proof.
  intros Ht Hv. rewrite (bsb_ghosted mB DB tyB vaB rB f loc Hper ltac:(now apply HbB)). induction hB as [|o hB IH]; intros p A0 A1; [auto|]. cbn [fold_left].
  apply IH; destruct o; cbn [pstep]; unfold setGhostICsKernel, updateEqsKernel; cbn [sb_type sb_loc sb_field sb_value sb_normal]; rewrite ?Ht, ?Hv; cbn [set_value set_eq gi_value gi_a0 gi_a1]; auto; ring.
Qed.
Lemma fold_geom s h p : geom (fold_left (pstep s) h p) = geom p.
Proof. revert p. induction h as [|o h IH]; intros p; [reflexivity|]. cbn [fold_left]. rewrite IH. apply pstep_geom. Qed.
Lemma ghost_plane v0 h x p : tyB f loc = NEUMANN -> vaB f loc = 0 -> geom p = geom pB0 -> ((h = [] /\ x = v0) \/ exists h', h = h' ++ [OpVals x]) ->
  gi_value (fold_left (pstep (bsb mB DB tyB vaB rB f loc)) (OpICs v0 :: h) p) = x (idx mB DB f tB).
Proof.
  intros Ht Hv Hg Hc. cbn [fold_left]. set (p1 := pstep _ p (OpICs v0)).
  assert (G1 : geom p1 = geom pB0) by (unfold p1; rewrite pstep_geom; exact Hg).
  assert (E1 : gi_value p1 = v0 (idx mB DB f tB) /\ gi_a0 p1 = 1 /\ gi_a1 p1 = 0).
  { unfold p1. rewrite (bsb_ghosted mB DB tyB vaB rB f loc Hper ltac:(now apply HbB)). cbn [pstep]. unfold setGhostICsKernel. cbn [sb_type sb_loc sb_field sb_value sb_normal]. rewrite Ht, Hv.
    rewrite (geom_tid _ _ Hg), target_id. cbn [set_value set_eq gi_value gi_a0 gi_a1]. repeat split; ring. }
  destruct E1 as (V & A0 & A1). destruct Hc as [[-> ->]|(h' & ->)]; [exact V|].
  rewrite fold_left_app. cbn [fold_left]. destruct (plane_coefficients h' Ht Hv p1 A0 A1) as [B0 B1].
  assert (G2 : geom (fold_left (pstep (bsb mB DB tyB vaB rB f loc)) h' p1) = geom pB0) by (rewrite fold_geom; exact G1).
  set (p2 := fold_left _ h' p1) in *. rewrite (bsb_ghosted mB DB tyB vaB rB f loc Hper ltac:(now apply HbB)). cbn [pstep set_value gi_value]. rewrite B0, B1, (geom_tid _ _ G2), target_id. ring.
Qed.
(** The others. *)
Hypotheses (Hpi : (0 <= pi f < m_dim mA)%Z) (Hl' : (0 <= loc' < m_dim mA * 2)%Z) (HrA : (0 <= rA < nranks DA)%Z).
Hypotheses (HinA : In (st_of (sp f q), pA0) (gl_points mA DA rA (pi f) loc')) (Hin : inner_of (m_n mA (pi f)) loc' (sp f q) = sp f tB).
Hypotheses (Hty : tyB f loc = tyA (pi f) loc') (Hdir : (loc / 2 =? f)%Z = (loc' / 2 =? pi f)%Z).
Hypothesis Hval :
    let gB := crd mB f (loc_dir loc) (pc q (loc_dir loc)) - crd mB f (loc_dir loc) (pc tB (loc_dir loc)) in
    let gA := crd mA (pi f) (loc_dir loc') (pc (sp f q) (loc_dir loc')) - crd mA (pi f) (loc_dir loc') (pc (inner_of (m_n mA (pi f)) loc' (sp f q)) (loc_dir loc')) in
    match tyB f loc with
    | DIRICHLET => vaB f loc = sg f * vaA (pi f) loc'
    | NEUMANN => gB * vaB f loc = sg f * (gA * vaA (pi f) loc')
    | CONVECTIVE => p_dt PB * vaB f loc / gB = p_dt PA * vaA (pi f) loc' / gA
    | _ => True
    end.
Lemma ghost_mapped hA hB : Forall2 mcall hA hB -> forall pA pB, geom pA = geom pA0 -> geom pB = geom pB0 ->
  gi_value pB = sg f * gi_value pA -> gi_a0 pB = gi_a0 pA -> gi_a1 pB = sg f * gi_a1 pA ->
  gi_value (fold_left (pstep (bsb mB DB tyB vaB rB f loc)) hB pB) = sg f * gi_value (fold_left (pstep (bsb mA DA tyA vaA rA (pi f) loc')) hA pA).
Proof.
  intros Hh. induction Hh as [|oA oB hA hB Ho Hh IH]; intros pA pB GA GB V A0 A1; [exact V|]. cbn [fold_left].
  assert (Hn : tyB f loc <> NOBC) by now apply HbB.
  pose proof (gl_points_info mA DA rA (pi f) loc' (sp f q) pA0 FA Hpi Hl' HrA HinA) as (_ & I1 & _ & _ & _ & _ & I2 & I3 & _). cbv zeta in I1, I3.
  pose proof (gl_points_info mB DB rB f loc q pB0 FB Hf Hl HrB HinB) as (_ & J1 & _ & _ & _ & _ & J2 & J3 & _). cbv zeta in J1, J3. fold tB in J1, J3.
  rewrite <- (geom_tid _ _ GA) in I1. rewrite <- (geom_dL _ _ GA) in I2, I3. rewrite <- (geom_tid _ _ GB) in J1. rewrite <- (geom_dL _ _ GB) in J2, J3.
  assert (Z0 : forall v w, mv 1 v w -> w (gi_tid pB) = sg f * v (gi_tid pA)).
  { intros v w H. rewrite I1, J1, Hin, (H f tB Hf target_inner). ring. }
  assert (HnA : tyA (pi f) loc' <> NOBC) by now apply HbA. assert (HpA : tyA (pi f) loc' <> PERIODIC) by (now rewrite <- Hty).
  rewrite (bsb_ghosted mB DB tyB vaB rB f loc Hper Hn), (bsb_ghosted mA DA tyA vaA rA (pi f) loc' HpA HnA) in *.
  cbv zeta in Hval. rewrite I3, J3 in Hval.
  assert (S : gi_value (pstep (mkSB (tyB f loc) loc f (vaB f loc) (normal_of loc) (checkBoundaryProc (m_n mB f) DB rB f loc) (gl_points mB DB rB f loc)) pB oB) =
              sg f * gi_value (pstep (mkSB (tyA (pi f) loc') loc' (pi f) (vaA (pi f) loc') (normal_of loc') (checkBoundaryProc (m_n mA (pi f)) DA rA (pi f) loc') (gl_points mA DA rA (pi f) loc')) pA oA) /\
              gi_a0 (pstep (mkSB (tyB f loc) loc f (vaB f loc) (normal_of loc) (checkBoundaryProc (m_n mB f) DB rB f loc) (gl_points mB DB rB f loc)) pB oB) =
              gi_a0 (pstep (mkSB (tyA (pi f) loc') loc' (pi f) (vaA (pi f) loc') (normal_of loc') (checkBoundaryProc (m_n mA (pi f)) DA rA (pi f) loc') (gl_points mA DA rA (pi f) loc')) pA oA) /\
              gi_a1 (pstep (mkSB (tyB f loc) loc f (vaB f loc) (normal_of loc) (checkBoundaryProc (m_n mB f) DB rB f loc) (gl_points mB DB rB f loc)) pB oB) =
              sg f * gi_a1 (pstep (mkSB (tyA (pi f) loc') loc' (pi f) (vaA (pi f) loc') (normal_of loc') (checkBoundaryProc (m_n mA (pi f)) DA rA (pi f) loc') (gl_points mA DA rA (pi f) loc')) pA oA)).
  2:{ destruct S as (S1 & S2 & S3). apply IH; auto; rewrite pstep_geom; auto. }
  assert (K : tyB f loc = CONVECTIVE -> normal_of loc * p_dt PB * vaB f loc / gi_dL pB = normal_of loc' * p_dt PA * vaA (pi f) loc' / gi_dL pA).
  { intros E. rewrite E in Hval. rewrite !Rmult_assoc.
    rewrite (over_normal loc _ (normal_of loc * gi_dL pB)) by (auto; lra). rewrite (over_normal loc' _ (normal_of loc' * gi_dL pA)) by (auto; lra). exact Hval. }
  clear IH. destruct Ho as [v w H|v w H|v w H]; cbn [pstep]; rewrite (Z0 _ _ H).
  - unfold setGhostICsKernel. cbn [sb_type sb_loc sb_field sb_value sb_normal]. rewrite <- Hty. destruct (tyB f loc) eqn:E; try contradiction; rewrite <- ?Hdir.
    + rewrite Hval. destruct (loc / 2 =? f)%Z; cbn [set_value set_eq gi_value gi_a0 gi_a1]; repeat split; ring.
    + cbn [set_value set_eq gi_value gi_a0 gi_a1]. rewrite Hval. repeat split; ring.
    + unfold kernelConvective. cbn [sb_loc sb_field sb_normal sb_value]. rewrite <- Hdir. destruct (loc / 2 =? f)%Z; unfold kernelConvectiveSameDir, kernelConvectiveDiffDir; cbn [set_value set_eq gi_value gi_a0 gi_a1 gi_dL]; unfold Rdiv; repeat split; ring.
  - unfold updateEqsKernel. cbn [sb_type sb_loc sb_field sb_value sb_normal]. rewrite <- Hty. destruct (tyB f loc) eqn:E; auto. specialize (K eq_refl).
    unfold kernelConvective. cbn [sb_loc sb_field sb_normal sb_value]. rewrite <- Hdir. destruct (loc / 2 =? f)%Z; unfold kernelConvectiveSameDir, kernelConvectiveDiffDir; cbn [set_value set_eq gi_value gi_a0 gi_a1 gi_dL].
    + split; [exact V|]. split; [reflexivity|]. rewrite V. transitivity (sg f * gi_value pA - (normal_of loc * p_dt PB * vaB f loc / gi_dL pB) * (sg f * gi_value pA - sg f * v (gi_tid pA))); [unfold Rdiv; ring|]. rewrite K. unfold Rdiv. ring.
    + split; [exact V|]. split; [reflexivity|]. rewrite V. transitivity (sg f * gi_value pA + sg f * v (gi_tid pA) - 2 * (normal_of loc * p_dt PB * vaB f loc / gi_dL pB) * (sg f * gi_value pA - sg f * v (gi_tid pA))); [unfold Rdiv; ring|]. rewrite K. unfold Rdiv. ring.
  - cbn [set_value gi_value gi_a0 gi_a1]. rewrite A0, A1. repeat split; ring.
Qed.
End Ghost.

(** The ghost values are those of the vector x. *)
Definition current (h : list bop) (x : vec) : Prop := exists v0 h', h = OpICs v0 :: h' /\ ((h' = [] /\ x = v0) \/ exists h'', h' = h'' ++ [OpVals x]).
(** The extension of a velocity is mapped to the extension of its image. *)
Lemma mapped_extends hA hB BA BB xA xB u : boundary_after mA DA tyA vaA hA BA -> boundary_after mB DB tyB vaB hB BB -> Forall2 mcall hA hB -> mv 1 xA xB -> current hB xB ->
  extends_box mA DA BA xA u -> extends_box mB DB BB xB (T u).
Proof.
  intros HA HB Hh Hx Hc ((X1 & X2 & X3) & X4). assert (R : repeats mB (T u)) by (apply Hrep; exact X4). split; [split; [|split]|].
  - intros id f p Hid. destruct (velocity_row mB DB id f p FB Hid) as (Hf & Hp & -> & _). destruct (Hpt f p Hf Hp) as [Hf' Hp'].
    rewrite (Hx f p Hf Hp). unfold T, map_velocity. fold sg pi sp. rewrite (X1 _ _ _ (proj2 (idx_spec mA DA _ _ FA Hf' Hp'))). ring.
  - intros f q Hf Hq _ Hi. now apply R.
  - intros f q v Hv. destruct (ghost_value_pure _ _ _ _ _ _ _ _ _ FB HbB HB Hv) as (rB & loc & pB & HrB & Hf & Hl & Hne & HpB & ->).
    assert (Hk : In (st_of q) (map fst (gl_points mB DB rB f loc))) by (apply in_map_iff; eexists; split; [|exact HpB]; reflexivity).
    apply gl_points_In in Hk; auto. destruct Hk as [G _].
    assert (Hp0 : periodic_dir mB (loc_dir loc) = false).
    { destruct (periodic_dir mB (loc_dir loc)) eqn:E; auto. exfalso. apply Hne. now apply (proj2 (HbB f loc Hf Hl)). }
    destruct (gl_initial _ _ _ _ _ _ _ HpB) as (Y1 & Y2 & Y3). unfold T, map_velocity. fold sg pi sp.
    destruct (Hghost f loc q Hf Hl Hp0 G) as [[Z0 ZV]|[(Nt & Nv & Ns)|(loc' & Hf' & Hl' & Hp' & G' & In' & Ht & Hd & Hv')]].
    + rewrite Z0, Rmult_0_l. symmetry. eapply (ghost_zero rB f loc q pB); eauto.
    + destruct Hc as (v0 & h' & -> & Hc). rewrite (ghost_plane rB f loc q pB Hf Hl HrB Hne HpB v0 h' xB pB Nt Nv eq_refl Hc).
      pose proof (target_inner rB f loc q pB Hf Hl HrB HpB) as Hi. destruct (Hpt f _ Hf Hi) as [Hf' Hp']. rewrite (Hx f _ Hf Hi), Ns, (X1 _ _ _ (proj2 (idx_spec mA DA _ _ FA Hf' Hp'))). ring.
    + assert (Hne' : tyA (pi f) loc' <> PERIODIC) by (rewrite <- Ht; exact Hne).
      destruct (ghost_one_rank mA DA (pi f) loc' (sp f q) FA Hf' Hl' G') as (rA & HrA & Hk1 & _).
      apply in_map_iff in Hk1. destruct Hk1 as ([k pA] & E & HpA). cbn [fst] in E. subst k. destruct (gl_initial _ _ _ _ _ _ _ HpA) as (Z1 & Z2 & Z3).
      rewrite (ghost_mapped rA rB f loc loc' q pA pB Hf Hl HrB Hne HpB Hf' Hl' HrA HpA In' Ht Hd Hv' hA hB Hh pA pB) by (auto; rewrite ?Y1, ?Y2, ?Y3, ?Z1, ?Z2, ?Z3; ring).
      f_equal. apply X3.
      exists rA. eexists. exists loc'. eexists. eexists. split; [exact HrA|]. rewrite (after_pure _ _ _ _ _ _ _ FA HbA HA HrA). unfold pure_state.
      split; [rewrite nthZ_map, nthZ_zrange by lia; cbn [option_map]; reflexivity|].
      split; [rewrite nthZ_map, nthZ_zrange by lia; cbn [option_map]; reflexivity|]. replace (0 + pi f)%Z with (pi f) by lia. replace (0 + loc')%Z with loc' by lia.
      split; [|reflexivity]. cbn [sb_after with_points sb_points]. apply in_map_iff. exists (st_of (sp f q), pA). split; [reflexivity|]. rewrite bsb_points.
      destruct (tyA (pi f) loc'); auto; contradiction.
  - exact R.
Qed.

(** * Runs *)
Lemma mv_exists k xA : exists xB, mv k xA xB.
Proof.
  exists (fun id => match nthZ (packed_layout (m_dim mB) DB) id with Some (f, p) => k * (sg f * xA (idx mA DA (pi f) (sp f p))) | None => 0 end).
  intros f p Hf Hp. now rewrite (proj2 (idx_spec mB DB f p FB Hf Hp)).
Qed.
Lemma mp_exists xA : exists xB, mp xA xB.
Proof.
  exists (fun id => match nthZ (field_layout DB 3) id with Some p => fm_pf M * xA (idx mA DA 3 (sp 3%Z p)) | None => 0 end).
  intros p Hp. now rewrite (proj2 (pidx_spec mB DB p FB Hp)).
Qed.
Lemma mv_on k xA x y : mv k xA x -> (forall i, (0 <= i < n_velocity mB)%Z -> y i = x i) -> mv k xA y.
Proof. intros H E f p Hf Hp. rewrite E by (apply idx_range; auto). now apply H. Qed.
Lemma velocity_idx (Q : Z -> Prop) : (forall f p, (0 <= f < m_dim mB)%Z -> interior (m_n mB f) p -> Q (idx mB DB f p)) -> forall i, (0 <= i < n_velocity mB)%Z -> Q i.
Proof. intros H i Hi. destruct (velocity_ids mB DB i FB Hi) as (f & p & Hid). destruct (velocity_row mB DB i f p FB Hid) as (Hf & Hp & -> & _). now apply H. Qed.
Lemma pressure_idx (Q : Z -> Prop) : (forall p, interior (m_n mB 3) p -> Q (idx mB DB 3 p)) -> forall i, (0 <= i < n_pressure mB)%Z -> Q i.
Proof. intros H i Hi. destruct (pressure_ids mB DB i FB Hi) as (p & Hid). destruct (pressure_row mB DB i p FB Hid) as (Hp & -> & _). now apply H. Qed.

Variables (tA tB : R) (nA nB : Z) (UA qA UB qB : vec) (OA OB : nsops) (a0 b0 : nsstate) (convA convB : boundary -> vec -> res vec) (vsA psA vsB psB : vec -> vec -> vec).
Hypotheses (HmA : periodic_min mA 3) (HmB : periodic_min mB 3) (HnA : no_normal_neumann mA tyA) (HnB : no_normal_neumann mB tyB).
Hypotheses (HbnA : p_bn PA = 1%Z) (HbnB : p_bn PB = 1%Z) (HdA : 0 < p_dt PA) (HdB : 0 < p_dt PB) (HcB : 0 <= p_dimp PB * p_nu PB).
Hypotheses (Hdimp : p_dimp PB = p_dimp PA) (Hcexp : p_cexp PB = p_cexp PA) (Hdexp : p_dexp PB = p_dexp PA) (Hkap : p_dt PA = kap * p_dt PB).
Hypotheses (HclA : p_refp PA = true -> impermeable mA tyA vaA) (HclB : p_refp PB = true -> impermeable mB tyB vaB).
Hypothesis HIA : ns_init mA DA PA tyA vaA tA nA UA qA = Ok (OA, a0).
Hypothesis HIB : ns_init mB DB PB tyB vaB tB nB UB qB = Ok (OB, b0).
Hypothesis HU : mv 1 UA UB.
Hypothesis Hq : exists a, mp qA (fun i => qB i + a).
Hypothesis Hconv : forall hA hB BA BB xA xB yA yB, boundary_after mA DA tyA vaA ([OpICs UA] ++ hA) BA -> boundary_after mB DB tyB vaB ([OpICs UB] ++ hB) BB ->
  Forall2 mcall hA hB -> mv 1 xA xB -> current ([OpICs UB] ++ hB) xB -> convA BA xA = Ok yA -> convB BB xB = Ok yB -> mv kap yA yB.

(** The stored terms. *)
Definition mslots (lA lB : list vec) : Prop := lenZ lA = lenZ lB /\ forall j v w, nthZ lA j = Some v -> nthZ lB j = Some w -> mv kap v w.
Lemma mslots_weighted cs lA lB f p : mslots lA lB -> (0 <= f < m_dim mB)%Z -> interior (m_n mB f) p ->
  weighted cs lB (idx mB DB f p) = kap * (sg f * weighted cs lA (idx mA DA (pi f) (sp f p))).
Proof.
  intros [L H] Hf Hp. unfold weighted. rewrite <- L. unfold zsum. rewrite <- !sumR_scal. apply sumR_ext. intros j Hj. apply zrange_In in Hj.
  destruct (nthZ_inside lA j Hj) as (v & Ev). destruct (nthZ_inside lB j ltac:(lia)) as (w & Ew). rewrite Ev, Ew. destruct (nthZ cs j) as [c|]; [|ring].
  rewrite (H j v w Ev Ew f p Hf Hp). ring.
Qed.
Lemma mslots_update lA lB lA' lB' newA newB :
  (do l <- rotate lA; if (0 <? lenZ l)%Z then do c <- newA; wr l 0 c else Ok l) = Ok lA' ->
  (do l <- rotate lB; if (0 <? lenZ l)%Z then do c <- newB; wr l 0 c else Ok l) = Ok lB' ->
  mslots lA lB -> (forall v w, newA = Ok v -> newB = Ok w -> mv kap v w) -> mslots lA' lB'.
Proof.
  intros E1 E2 [L H] Hn. destruct (slots_update _ _ _ E1) as (L1 & O1 & N1). destruct (slots_update _ _ _ E2) as (L2 & O2 & N2).
  split; [lia|]. intros j v w Ev Ew. pose proof (nthZ_Some_range _ _ _ Ev) as Rj. destruct (Z.eq_dec j 0) as [->|Hne].
  - destruct (N1 ltac:(lia)) as (c & Ec & Ec'). destruct (N2 ltac:(lia)) as (c' & Ed & Ed'). rewrite Ev in Ec'. injection Ec' as ->. rewrite Ew in Ed'. injection Ed' as ->. now apply Hn.
  - rewrite O1 in Ev by lia. rewrite O2 in Ew by lia. exact (H _ v w Ev Ew).
Qed.

Definition mstate (sA sB : nsstate) : Prop :=
  (exists hA hB, Forall2 mcall hA hB /\ boundary_after mA DA tyA vaA ([OpICs UA] ++ hA) (s_bc sA) /\ boundary_after mB DB tyB vaB ([OpICs UB] ++ hB) (s_bc sB) /\ current ([OpICs UB] ++ hB) (s_U sB)) /\
  mv 1 (s_U sA) (s_U sB) /\ (exists a, mp (s_p sA) (fun i => s_p sB i + a)) /\ mslots (s_conv sA) (s_conv sB) /\ mslots (s_diff sA) (s_diff sB).

Lemma mstate_init : mstate a0 b0.
Proof.
  destruct (ns_init_inv _ _ _ _ _ _ _ _ _ _ _ FA HbA HIA) as (BA & HA & _ & ->). destruct (ns_init_inv _ _ _ _ _ _ _ _ _ _ _ FB HbB HIB) as (BB & HB & _ & ->).
  unfold mstate. cbn [s_bc s_U s_p s_conv s_diff]. split; [exists [], []; rewrite !app_nil_r; repeat (split; [auto|]); exists UB, []; auto|]. split; [exact HU|]. split; [exact Hq|].
  assert (Z0 : forall l : list R, mslots (map (fun _ => (fun _ => 0) : vec) l) (map (fun _ => (fun _ => 0) : vec) l)).
  { intros l. split; [reflexivity|]. intros j v w Ev Ew. rewrite Ev in Ew. injection Ew as <-. rewrite nthZ_map in Ev. destruct (nthZ l j); [|discriminate]. injection Ev as <-. intros f p _ _. ring. }
  rewrite Hcexp, Hdexp. auto.
Qed.

Lemma mcalls hA hB : Forall2 mcall hA hB -> Forall2 mcall ([OpICs UA] ++ hA) ([OpICs UB] ++ hB).
Proof. intros H. apply Forall2_app; auto. repeat constructor. exact HU. Qed.
Lemma mcall_app hA hB a b : Forall2 mcall hA hB -> mcall a b -> Forall2 mcall (hA ++ [a]) (hB ++ [b]).
Proof. intros H H'. apply Forall2_app; auto. Qed.

(** nu (L x + Lbc) is mapped. *)
Lemma mlap hA hB BA BB xA xB cA cB : Forall2 mcall hA hB -> boundary_after mA DA tyA vaA ([OpICs UA] ++ hA) BA -> boundary_after mB DB tyB vaB ([OpICs UB] ++ hB) BB ->
  mv 1 xA xB -> correction_mult mA (nranks DA) (o_L OA) BA = Ok cA -> correction_mult mB (nranks DB) (o_L OB) BB = Ok cB ->
  forall f p, (0 <= f < m_dim mB)%Z -> interior (m_n mB f) p ->
    p_nu PB * (mvec (n_velocity mB) (entry (op_log (o_L OB))) xB (idx mB DB f p) + cB (idx mB DB f p)) =
    kap * (sg f * (p_nu PA * (mvec (n_velocity mA) (entry (op_log (o_L OA))) xA (idx mA DA (pi f) (sp f p)) + cA (idx mA DA (pi f) (sp f p))))).
Proof.
  intros Hh HA HB Hx EA EB f p Hf Hp. destruct (Hpt f p Hf Hp) as [Hf' Hp'].
  pose proof (pure_after mA DA tyA vaA ([OpICs UA] ++ hA ++ [OpVals xA]) FA HbA) as HA2. pose proof (pure_after mB DB tyB vaB ([OpICs UB] ++ hB ++ [OpVals xB]) FB HbB) as HB2.
  destruct (extends_box_exists mA DA tyA vaA _ _ xA FA HbA HA2) as (u & HX).
  assert (HX2 : extends_box mB DB (fun r => pure_state mB DB tyB vaB r ([OpICs UB] ++ hB ++ [OpVals xB])) xB (T u)).
  { refine (mapped_extends _ _ _ _ _ _ _ HA2 HB2 _ Hx _ HX); [|exists UB, (hB ++ [OpVals xB]); eauto]. apply mcalls. apply mcall_app; auto. now constructor. }
  rewrite (lap_field mA DA PA tyA vaA tA nA UA qA OA a0 HsA HbA HmA HIA hA BA _ xA cA u HA HA2 (proj1 HX) EA _ _ Hf' Hp').
  rewrite (lap_field mB DB PB tyB vaB tB nB UB qB OB b0 HsB HbB HmB HIB hB BB _ xB cB (T u) HB HB2 (proj1 HX2) EB _ _ Hf Hp).
  apply Hlap; auto. exact (proj2 HX).
Qed.
Lemma mgrad yA yB a : mp yA (fun i => yB i + a) -> mv kap (mvec (n_pressure mA) (o_G OA) yA) (mvec (n_pressure mB) (o_G OB) yB).
Proof.
  intros Hy f p Hf Hp. destruct (Hpt f p Hf Hp) as [Hf' Hp']. pose (pr := fun q : pt => yA (idx mA DA 3 q)).
  rewrite (grad_field mA DA PA tyA vaA tA nA UA qA OA a0 HsA HbA HmA HIA yA pr ltac:(auto) _ _ Hf' Hp').
  rewrite (grad_field mB DB PB tyB vaB tB nB UB qB OB b0 HsB HbB HmB HIB yB (fun q => map_pressure M pr q - a)); auto.
  - rewrite <- (Hgrad pr f p Hf Hp). unfold gradient_at, Rdiv. ring.
  - intros q Hq'. unfold map_pressure, pr. fold sp. rewrite <- (Hy q Hq'). ring.
Qed.

Lemma mstep sA sB rA rB : mstate sA sB -> exact_step mA DA PA OA convA vsA psA sA -> exact_step mB DB PB OB convB vsB psB sB ->
  advance mA DA PA OA convA vsA psA sA = Ok rA -> advance mB DB PB OB convB vsB psB sB = Ok rB -> mstate rA rB.
Proof.
  intros ((hA & hB & Hh & HA & HB & Cu) & SU & (a & Sp) & Sc & Sd) XA XB EA EB.
  destruct (advance_inv _ _ _ _ _ _ _ _ _ EA) as (r1 & w1 & b1 & R1 & P1 & BE1 & _ & EU1 & Ep1 & BV1 & _ & _ & Ec1 & Ed1).
  destruct (advance_inv _ _ _ _ _ _ _ _ _ EB) as (r2 & w2 & b2 & R2 & P2 & BE2 & _ & EU2 & Ep2 & BV2 & _ & _ & Ec2 & Ed2).
  destruct (XA _ _ _ R1 P1) as [SA1 SP1]. destruct (XB _ _ _ R2 P2) as [SA2 SP2].
  set (vA := vsA (s_U sA) r1) in *. set (vB := vsB (s_U sB) r2) in *. set (fA := psA (s_dP sA) b1) in *. set (fB := psB (s_dP sB) b2) in *.
  (* explicit terms *)
  destruct (rhsvel_slots _ _ _ _ _ _ _ _ _ R1) as [T1 T2]. destruct (rhsvel_slots _ _ _ _ _ _ _ _ _ R2) as [T3 T4]. cbn [s_conv s_diff s_bc s_U] in T1, T2, T3, T4.
  assert (Sc' : mslots (s_conv w1) (s_conv w2)).
  { refine (mslots_update _ _ _ _ _ _ T1 T3 Sc _). intros v w Ev Ew. apply bind_ok_inv in Ev. destruct Ev as (y & Ey & X). injection X as <-. apply bind_ok_inv in Ew. destruct Ew as (z & Ez & X). injection X as <-.
    pose proof (Hconv hA hB _ _ _ _ y z HA HB Hh SU Cu Ey Ez) as K. intros f p Hf Hp. unfold vscale. rewrite (K f p Hf Hp). ring. }
  assert (Sd' : mslots (s_diff w1) (s_diff w2)).
  { refine (mslots_update _ _ _ _ _ _ T2 T4 Sd _). intros v w Ev Ew. apply bind_ok_inv in Ev. destruct Ev as (y & Ey & X). injection X as <-. apply bind_ok_inv in Ew. destruct Ew as (z & Ez & X). injection X as <-.
    pose proof (mlap hA hB _ _ _ _ y z Hh HA HB SU Ey Ez) as K. intros f p Hf Hp. specialize (K f p Hf Hp). unfold vscale, vaxpy. lra. }
  (* momentum *)
  apply (bc_call_inv mA DA tyA vaA _ _ _ _ FA HbA HA) in BE1. apply (bc_call_inv mB DB tyB vaB _ _ _ _ FB HbB HB) in BE2. rewrite <- app_assoc in BE1, BE2.
  assert (Hh1 : Forall2 mcall (hA ++ [OpEqs (s_U sA) (p_dt PA)]) (hB ++ [OpEqs (s_U sB) (p_dt PB)])) by (apply mcall_app; auto; now constructor).
  destruct (rhs_value _ _ _ _ _ _ _ _ _ R1) as (c1 & C1 & V1). destruct (rhs_value _ _ _ _ _ _ _ _ _ R2) as (c2 & C2 & V2). cbn [s_U s_p] in V1, V2.
  assert (AA : o_A OA = mshift (mscale (- p_dimp PA * p_nu PA) (entry (op_log (o_L OA)))) (1 / p_dt PA)).
  { destruct (ns_init_inv _ _ _ _ _ _ _ _ _ _ _ FA HbA HIA) as (? & _ & EO & _). destruct (createOperators_inv _ _ _ _ _ EO) as (? & ? & ? & ? & _ & _ & _ & _ & ->). reflexivity. }
  assert (AB : o_A OB = mshift (mscale (- p_dimp PB * p_nu PB) (entry (op_log (o_L OB)))) (1 / p_dt PB)).
  { destruct (ns_init_inv _ _ _ _ _ _ _ _ _ _ _ FB HbB HIB) as (? & _ & EO & _). destruct (createOperators_inv _ _ _ _ _ EO) as (? & ? & ? & ? & _ & _ & _ & _ & ->). reflexivity. }
  assert (Kd : / p_dt PB = kap * / p_dt PA) by (rewrite Hkap; field; split; [lra|intros Z0; rewrite Z0, Rmult_0_l in Hkap; lra]).
  destruct (mv_exists 1 vA) as (w & Hw).
  assert (SW : solves (n_velocity mB) (o_A OB) w r2).
  { unfold solves. apply velocity_idx. intros f p Hf Hp. destruct (Hpt f p Hf Hp) as [Hf' Hp'].
    pose proof (SA1 _ (idx_range mA DA _ _ FA Hf' Hp')) as EqA. rewrite AA, mvec_shift in EqA by (apply idx_range; auto). rewrite AB, mvec_shift by (apply idx_range; auto).
    rewrite V1 in EqA. rewrite V2. rewrite Hcexp, Hdexp, Hdimp.
    rewrite (mslots_weighted _ _ _ f p Sc' Hf Hp), (mslots_weighted _ _ _ f p Sd' Hf Hp), (mgrad _ _ a Sp f p Hf Hp), (Hw f p Hf Hp), (SU f p Hf Hp).
    pose proof (mlap _ _ _ _ vA w c1 c2 Hh1 BE1 BE2 Hw C1 C2 f p Hf Hp) as KL.
    unfold Rdiv in *. rewrite Kd.
    match type of KL with p_nu PB * (?lB + ?cB) = kap * (sg f * (p_nu PA * (?lA + ?cA))) => set (LB := lB) in *; set (CB := cB) in *; set (LA := lA) in *; set (CA := cA) in * end.
    assert (KL' : p_dimp PA * (p_nu PB * LB) = p_dimp PA * (kap * (sg f * (p_nu PA * (LA + CA)))) - p_dimp PA * (p_nu PB * CB)) by (rewrite <- KL; ring).
    assert (E1 : vA (idx mA DA (pi f) (sp f p)) * / p_dt PA = s_U sA (idx mA DA (pi f) (sp f p)) * / p_dt PA - mvec (n_pressure mA) (o_G OA) (s_p sA) (idx mA DA (pi f) (sp f p)) +
       weighted (p_cexp PA) (s_conv w1) (idx mA DA (pi f) (sp f p)) + weighted (p_dexp PA) (s_diff w1) (idx mA DA (pi f) (sp f p)) + p_dimp PA * p_nu PA * (LA + CA)) by lra.
    apply (f_equal (fun z => kap * (sg f * z))) in E1. lra. }
  destruct (momentum_unique_ns mB DB PB tyB vaB tB nB UB qB OB b0 HsB HbB HIB HmB HcB HdB r2) as (x & Hx & Uq).
  assert (VV : mv 1 vA vB). { apply (mv_on 1 vA w); auto. intros i Hi. rewrite (Uq w SW i Hi). now apply Uq. }
  (* projection *)
  destruct (mv_exists 1 (s_U rA)) as (y & Hy). destruct (mp_exists fA) as (q & Hq').
  assert (GY : forall i, (0 <= i < n_velocity mB)%Z -> y i = vB i - mvec (n_pressure mB) (o_BNG OB) q i).
  { apply velocity_idx. intros f p Hf Hp. destruct (Hpt f p Hf Hp) as [Hf' Hp'].
    rewrite (bng_grad mB DB PB tyB vaB tB nB UB qB OB b0 HsB HbB HbnB HIB) by (apply idx_range; auto).
    rewrite (Hy f p Hf Hp), EU1. unfold vaxpy. rewrite (bng_grad mA DA PA tyA vaA tA nA UA qA OA a0 HsA HbA HbnA HIA) by (apply idx_range; auto).
    rewrite (VV f p Hf Hp). rewrite (mgrad fA q 0 ltac:(intros p' Hp''; rewrite (Hq' p' Hp''); ring) f p Hf Hp), Hkap. ring. }
  pose proof (pure_after mA DA tyA vaA ([OpICs UA] ++ (hA ++ [OpEqs (s_U sA) (p_dt PA)]) ++ [OpVals (s_U rA)]) FA HbA) as HA2.
  pose proof (pure_after mB DB tyB vaB ([OpICs UB] ++ (hB ++ [OpEqs (s_U sB) (p_dt PB)]) ++ [OpVals y]) FB HbB) as HB2.
  destruct (extends_box_exists mA DA tyA vaA _ _ (s_U rA) FA HbA HA2) as (u & HX).
  assert (HX2 : extends_box mB DB (fun r => pure_state mB DB tyB vaB r ([OpICs UB] ++ (hB ++ [OpEqs (s_U sB) (p_dt PB)]) ++ [OpVals y])) y (T u)).
  { refine (mapped_extends _ _ _ _ _ _ _ HA2 HB2 _ Hy _ HX); [|exists UB; eexists; split; [reflexivity|eauto]]. apply mcalls. apply mcall_app; auto. now constructor. }
  assert (FluxA : forall p, interior (m_n mA 3) p -> net_flux mA false u p = 0).
  { rewrite EU1 in HA2, HX. exact (projected_flux mA DA PA tyA vaA tA nA UA qA OA a0 HsA HbA HmA HnA HbnA HclA HIA _ _ _ vA b1 fA u BE1 P1 SP1 HA2 (proj1 HX)). }
  destruct (poisson_unpinned mB DB PB tyB vaB tB nB UB qB OB b0 HsB HbB HmB HnB HbnB HclB HIB _ _ vB b2 fB BE2 P2 SP2) as (c & Ec & SB).
  assert (SQ : solves (n_pressure mB) (unpinned mB OB) q (vaxpy c 1 (mvec (n_velocity mB) (entry (op_log (o_D OB))) vB))).
  { unfold solves. apply pressure_idx. intros p Hp.
    pose proof (div_field mB DB PB tyB vaB tB nB UB qB OB b0 HsB HbB HmB HIB _ _ _ y c (T u) BE2 HB2 (proj1 HX2) Ec p Hp) as Ky.
    rewrite (Hflux u (proj2 HX) FluxA p Hp) in Ky. unfold unpinned. rewrite mvec_mmul. unfold vaxpy.
    assert (Ed : mvec (n_velocity mB) (entry (op_log (o_D OB))) y (idx mB DB 3 p) = mvec (n_velocity mB) (entry (op_log (o_D OB))) vB (idx mB DB 3 p) - mvec (n_velocity mB) (entry (op_log (o_D OB))) (mvec (n_pressure mB) (o_BNG OB) q) (idx mB DB 3 p)).
    { unfold mvec at 1 2 3. unfold zsum. rewrite <- sumR_minus. apply sumR_ext. intros l Hl. apply zrange_In in Hl. rewrite (GY l Hl). ring. }
    lra. }
  destruct (kernel_unpinned mB DB PB tyB vaB tB nB UB qB OB b0 HsB HbB HmB HnB HbnB HdB HclB HIB fB q _ SB SQ) as (e & He).
  assert (UU : mv 1 (s_U rA) (s_U rB)).
  { apply (mv_on 1 (s_U rA) y); auto. intros i Hi. rewrite (GY i Hi), EU2. unfold vaxpy.
    rewrite !(bng_grad mB DB PB tyB vaB tB nB UB qB OB b0 HsB HbB HbnB HIB) by auto.
    assert (G : mvec (n_pressure mB) (o_G OB) fB i = mvec (n_pressure mB) (o_G OB) q i); [|rewrite G; ring].
    revert i Hi. apply velocity_idx. intros f p Hf Hp.
    rewrite (mgrad fA fB (- e) ltac:(intros p' Hp''; rewrite <- (Hq' p' Hp''), (He _ (pidx_range mB DB p' FB Hp'')); ring) f p Hf Hp).
    rewrite (mgrad fA q 0 ltac:(intros p' Hp''; rewrite (Hq' p' Hp''); ring) f p Hf Hp). reflexivity. }
  apply (bc_call_inv mA DA tyA vaA _ _ _ _ FA HbA BE1) in BV1. apply (bc_call_inv mB DB tyB vaB _ _ _ _ FB HbB BE2) in BV2. rewrite <- app_assoc in BV1, BV2.
  split; [|split; [exact UU|split; [|rewrite Ec1, Ec2, Ed1, Ed2; auto]]].
  - do 2 eexists. split; [|split; [exact BV1|split; [exact BV2|exists UB; eexists; split; [reflexivity|eauto]]]]. apply mcall_app; auto. now constructor.
  - exists (a - e). intros p Hp. rewrite Ep1, Ep2. unfold vaxpy. pose proof (Sp p Hp) as K1. pose proof (Hq' p Hp) as K2. rewrite (He _ (pidx_range mB DB p FB Hp)). cbv beta in K1. lra.
Qed.

Lemma mrun k sA sB : exact_run mA DA PA OA convA vsA psA a0 k -> exact_run mB DB PB OB convB vsB psB b0 k ->
  ns_steps mA DA PA OA convA vsA psA k a0 = Ok sA -> ns_steps mB DB PB OB convB vsB psB k b0 = Ok sB -> mstate sA sB.
Proof.
  revert sA sB. induction k as [|k IH]; intros sA sB XA XB EA EB.
  - injection EA as <-. injection EB as <-. exact mstate_init.
  - cbn [ns_steps] in EA, EB. apply bind_ok_inv in EA. destruct EA as (xA & YA & EA). apply bind_ok_inv in EB. destruct EB as (xB & YB & EB).
    apply (mstep xA xB); auto; [|apply (XA k); auto|apply (XB k); auto]. apply IH; auto; intros j s Hj; [apply XA|apply XB]; lia.
Qed.
End Sim.
