(** Three-dimensional runs of two-dimensional flows. *)
From Coq Require Import ZArith Reals Lra Lia.
From Coq Require Import ZifyBool.
From Verif Require Import Prelude ZSum RSum TypesModel GridModel GridSpec GridProof MeshProof
  IndexModel IndexSpec IndexProof BoundaryModel BoundarySpec BoundaryProof OperatorModel OperatorSpec OperatorProof BStateProof LapProof DivProof GradProof
  AdjProof SymProof MatModel BnModel NSModel NSSpec NSProof NSPin LinAlg NSProps UniqueProof UniqueProps OperatorProps AlgebraProps
  ConvModel ConvSpec ConvProof ConvValue ConvTotal ConvProps EnergySpec EnergyProof EnergyRun IbpmProps DecSpec DecProof DecConv SteadySpec SteadyProof WidthProof SimSpec SimOne SimProof.
Local Open Scope R_scope.

Definition in_plane (p : pt) : pt := let '(i, j, k) := p in (i, j, 0%Z).
Definition plane_map : fmap :=
  mkMap (fun f => if (f =? 2)%Z then 0 else 1) (fun f => if (f =? 2)%Z then 0%Z else f) (fun f p => if (f =? 2)%Z then (0%Z, 0%Z, 0%Z) else in_plane p) 1.

Lemma zsum_two g : zsum g 0 2 = g 0%Z + g 1%Z.
Proof. unfold zsum. change (zrange 0 2) with [0; 1]%Z. cbn [sumR]. ring. Qed.
Lemma zsum_three g : zsum g 0 3 = g 0%Z + g 1%Z + g 2%Z.
Proof. unfold zsum. change (zrange 0 3) with [0; 1; 2]%Z. cbn [sumR]. ring. Qed.

Section Plane.
Variables (mA mB : mesh) (DA DB : dec) (tyA tyB : Z -> Z -> bctype) (vaA vaB : Z -> Z -> R) (PA PB : nspar).
Hypotheses (HsA : mesh_setup mA DA) (HsB : mesh_setup mB DB) (HbA : bc_fits mA tyA) (HbB : bc_fits mB tyB).
Hypotheses (Hex : extruded mA mB) (Hbc : extruded_bc mB tyA tyB vaA vaB) (Hsame : same_scheme PA PB).
Let FA : mfacts mA DA := setup_facts _ _ HsA.
Let FB : mfacts mB DB := setup_facts _ _ HsB.
Let dA : m_dim mA = 2%Z := proj1 Hex.
Let dB : m_dim mB = 3%Z := proj1 (proj2 Hex).

Lemma pn3 d : (0 <= d < 2)%Z -> m_n mB 3 d = m_n mA 3 d.
Proof. intros H. apply (proj2 (proj2 Hex) d H). Qed.
Lemma pper d : (0 <= d < 2)%Z -> periodic_dir mB d = periodic_dir mA d.
Proof. intros H. apply (proj2 (proj2 Hex) d H). Qed.
Lemma pn f d : (0 <= f < 2)%Z -> (0 <= d < 2)%Z -> m_n mB f d = m_n mA f d.
Proof.
  intros Hf Hd. destruct (Z.eq_dec f d) as [->|N].
  - rewrite (mf_n_own _ _ FB d), (mf_n_own _ _ FA d), pper, pn3 by lia. reflexivity.
  - rewrite (mf_n_oth _ _ FB f d), (mf_n_oth _ _ FA f d), pn3 by lia. reflexivity.
Qed.
Lemma pn2 f : (0 <= f < 2 \/ f = 3)%Z -> m_n mA f 2 = 1%Z.
Proof. intros H. apply (mf_flat _ _ FA f); lia. Qed.
Lemma npos f d : (0 <= f < 2 \/ f = 3)%Z -> (0 <= d < 3)%Z -> (1 <= m_n mA f d)%Z.
Proof. intros Hf Hd. pose proof (mf_np _ _ FA f d ltac:(lia) Hd). lia. Qed.
Lemma pcw d i : (0 <= d < 2)%Z -> cw mB d i = cw mA d i.
Proof.
  intros Hd. destruct (proj2 (proj2 Hex) d Hd) as (N & Pe & W). pose proof (npos 3 d ltac:(lia) ltac:(lia)) as K. unfold cw. rewrite N, Pe.
  destruct (Z.ltb_spec i 0), (periodic_dir mA d), (Z.ltb_spec i (m_n mA 3 d)); rewrite ?W by lia; reflexivity.
Qed.
Lemma pgap f d i : (0 <= f < 2)%Z -> (0 <= d < 2)%Z -> (0 <= i <= m_n mA f d)%Z -> crd mB f d i - crd mB f d (i - 1) = crd mA f d i - crd mA f d (i - 1).
Proof.
  intros Hf Hd Hi. destruct (Z.eq_dec f d) as [->|N].
  - rewrite (own_gap mB DB HsB d i), (own_gap mA DA HsA d i) by (rewrite ?pn; lia). now apply pcw.
  - rewrite (oth_gap mB DB HsB f d i), (oth_gap mA DA HsA f d i) by (rewrite ?pn; lia). now rewrite !pcw by lia.
Qed.
Lemma pwid f d i : (0 <= f < 2)%Z -> (0 <= d < 2)%Z -> (0 <= i < m_n mA f d)%Z -> wid mB f d i = wid mA f d i.
Proof.
  intros Hf Hd Hi. destruct (Z.eq_dec f d) as [->|N].
  - rewrite (own_wid mB DB HsB d i), (own_wid mA DA HsA d i) by (rewrite ?pn; lia). now rewrite !pcw by lia.
  - rewrite (oth_wid mB DB HsB f d i), (oth_wid mA DA HsA f d i) by (rewrite ?pn; lia). now apply pcw.
Qed.
Lemma psecond f d v i : (0 <= f < 2)%Z -> (0 <= d < 2)%Z -> (0 <= i < m_n mA f d)%Z -> second_difference mB f d v i = second_difference mA f d v i.
Proof.
  intros Hf Hd Hi. unfold second_difference. rewrite pwid by auto. rewrite (pgap f d i) by lia.
  pose proof (pgap f d (i + 1) Hf Hd ltac:(lia)) as G. replace (i + 1 - 1)%Z with i in G by lia. rewrite G. reflexivity.
Qed.

Lemma plane_pt f p : (0 <= f < m_dim mB)%Z -> interior (m_n mB f) p -> (0 <= fm_pi plane_map f < m_dim mA)%Z /\ interior (m_n mA (fm_pi plane_map f)) (fm_pt plane_map f p).
Proof.
  rewrite dB, dA. intros Hf Hp. cbn [plane_map fm_pi fm_pt]. destruct (Z.eqb_spec f 2) as [->|N].
  - split; [lia|]. cbn. pose proof (npos 0 0 ltac:(lia) ltac:(lia)). pose proof (npos 0 1 ltac:(lia) ltac:(lia)). pose proof (npos 0 2 ltac:(lia) ltac:(lia)). lia.
  - split; [lia|]. destruct p as [[i j] k]. cbn in *. rewrite (pn2 f ltac:(lia)), <- !pn by lia. lia.
Qed.
Lemma plane_cell p : interior (m_n mB 3) p -> interior (m_n mA 3) (fm_pt plane_map 3 p).
Proof. destruct p as [[i j] k]. cbn. rewrite !pn3, (pn2 3) by lia. lia. Qed.
Lemma plane_repeats u : repeats mA u -> repeats mB (map_velocity plane_map u).
Proof.
  intros H f q. rewrite dB. intros Hf Hq Hi. unfold map_velocity. cbn [plane_map fm_sg fm_pi fm_pt]. destruct (Z.eqb_spec f 2) as [->|N]; [reflexivity|].
  destruct q as [[i j] k]. cbn [image in_plane]. f_equal. cbn in Hq, Hi.
  pose proof (H f (i, j, 0%Z) ltac:(lia)) as K. cbn in K. rewrite (pn2 f ltac:(lia)) in K. rewrite !pn in * by lia. rewrite !pper in Hi by lia.
  change (wrap 1 0) with 0%Z in K. apply K; [lia|]. clear K. rewrite !andb_true_iff in Hi. destruct Hi as [[-> ->] _]. reflexivity.
Qed.
Lemma plane_lap u f p : repeats mA u -> (0 <= f < m_dim mB)%Z -> interior (m_n mB f) p ->
  p_nu PB * laplacian_at mB f (map_velocity plane_map u) p = 1 * (fm_sg plane_map f * (p_nu PA * laplacian_at mA (fm_pi plane_map f) u (fm_pt plane_map f p))).
Proof.
  intros _. rewrite dB. intros Hf Hp. unfold laplacian_at. rewrite dA, dB, zsum_two, zsum_three. unfold map_velocity. cbn [plane_map fm_sg fm_pi fm_pt]. destruct (Z.eqb_spec f 2) as [->|N].
  - unfold second_difference, Rdiv. ring.
  - destruct p as [[i j] k]. cbn in Hp. rewrite !pn in Hp by lia. cbn [setc pc in_plane Z.eqb Pos.eqb].
    rewrite !(psecond f) by lia. replace (second_difference mB f 2 _ k) with 0 by (unfold second_difference, Rdiv; ring).
    replace (p_nu PB) with (p_nu PA) by (symmetry; apply Hsame). unfold second_difference, Rdiv. ring.
Qed.
Lemma wrap_in n i : (0 <= i < n)%Z -> wrap n i = i.
Proof. intros H. unfold wrap. now apply Z.mod_small. Qed.
Lemma plane_grad pr f p : (0 <= f < m_dim mB)%Z -> interior (m_n mB f) p ->
  gradient_at mB false (map_pressure plane_map pr) f p = 1 * (fm_sg plane_map f * gradient_at mA false pr (fm_pi plane_map f) (fm_pt plane_map f p)).
Proof.
  rewrite dB. intros Hf Hp. unfold gradient_at, map_pressure. cbn [plane_map fm_sg fm_pi fm_pt fm_pf Z.eqb Pos.eqb].
  destruct (Z.eqb_spec f 2) as [->|N].
  - destruct p as [[i j] k]. cbn in Hp. cbn [shift setc pc image in_plane Z.eqb Pos.eqb].
    rewrite (mf_n_oth _ _ FB 2 0), (mf_n_oth _ _ FB 2 1) in Hp by lia. rewrite !wrap_in by lia. unfold Rdiv. ring.
  - destruct p as [[i j] k]. cbn in Hp. rewrite !pn in Hp by lia.
    assert (f = 0 \/ f = 1)%Z as [->| ->] by lia; cbn [shift setc pc image in_plane Z.eqb Pos.eqb]; rewrite !pn3, (pn2 3), pwid by lia; change (wrap 1 0) with 0%Z; unfold Rdiv; ring.
Qed.
Lemma plane_flux u : repeats mA u -> (forall q, interior (m_n mA 3) q -> net_flux mA false u q = 0) ->
  forall p, interior (m_n mB 3) p -> net_flux mB false (map_velocity plane_map u) p = 0.
Proof.
  intros _ H p Hp. pose proof (H _ (plane_cell p Hp)) as K. destruct p as [[i j] k]. cbn [plane_map fm_pt Z.eqb Pos.eqb in_plane] in K. cbn in Hp. rewrite !pn3 in Hp by lia.
  unfold net_flux in *. rewrite dA, zsum_two in K. rewrite dB, zsum_three. unfold face_area, map_velocity in *.
  cbn [plane_map fm_sg fm_pi fm_pt perp0 perp1 Z.eqb Pos.eqb pc setc shift in_plane] in *.
  rewrite (pwid 0 1), (pwid 1 0) by (rewrite ?(mf_n_oth _ _ FA) by lia; lia). rewrite (oth_wid mB DB HsB 0 2), (oth_wid mB DB HsB 1 2) by (rewrite ?dB, ?(mf_n_oth _ _ FB) by lia; lia).
  assert (W0 : wid mA 0 2 0 = 1) by (apply (mf_flat _ _ FA 0); lia). assert (W1 : wid mA 1 2 0 = 1) by (apply (mf_flat _ _ FA 1); lia). rewrite W0, W1 in K.
  transitivity (cw mB 2 k * (wid mA 0 1 j * 1 * (u 0%Z (i, j, 0%Z) - u 0%Z ((i + -1)%Z, j, 0%Z)) + wid mA 1 0 i * 1 * (u 1%Z (i, j, 0%Z) - u 1%Z (i, (j + -1)%Z, 0%Z)))); [ring|]. rewrite K. ring.
Qed.
Lemma in_plane_pc q d : (0 <= d < 2)%Z -> pc (in_plane q) d = pc q d.
Proof. intros H. destruct q as [[i j] k]. assert (d = 0 \/ d = 1)%Z as [->| ->] by lia; reflexivity. Qed.
Lemma in_plane_setc q d x : (0 <= d < 2)%Z -> setc (in_plane q) d x = in_plane (setc q d x).
Proof. intros H. destruct q as [[i j] k]. assert (d = 0 \/ d = 1)%Z as [->| ->] by lia; reflexivity. Qed.
Lemma in_plane_interior f q : (0 <= f < 2)%Z -> interior (m_n mB f) q -> interior (m_n mA f) (in_plane q).
Proof. intros H. destruct q as [[i j] k]. cbn. rewrite (pn2 f), !pn by lia. lia. Qed.
Lemma plane_ghost f loc q : (0 <= f < m_dim mB)%Z -> (0 <= loc < m_dim mB * 2)%Z -> periodic_dir mB (loc_dir loc) = false -> is_ghost (m_n mB f) loc q ->
  let sg := fm_sg plane_map in let pi := fm_pi plane_map in let sp := fm_pt plane_map in
  (sg f = 0 /\ (tyB f loc = CONVECTIVE \/ vaB f loc = 0)) \/
  (tyB f loc = NEUMANN /\ vaB f loc = 0 /\ sp f q = sp f (inner_of (m_n mB f) loc q)) \/
  exists loc', (0 <= pi f < m_dim mA)%Z /\ (0 <= loc' < m_dim mA * 2)%Z /\ periodic_dir mA (loc_dir loc') = false /\ is_ghost (m_n mA (pi f)) loc' (sp f q) /\
    inner_of (m_n mA (pi f)) loc' (sp f q) = sp f (inner_of (m_n mB f) loc q) /\ tyB f loc = tyA (pi f) loc' /\ (loc / 2 =? f)%Z = (loc' / 2 =? pi f)%Z /\
    let gB := crd mB f (loc_dir loc) (pc q (loc_dir loc)) - crd mB f (loc_dir loc) (pc (inner_of (m_n mB f) loc q) (loc_dir loc)) in
    let gA := crd mA (pi f) (loc_dir loc') (pc (sp f q) (loc_dir loc')) - crd mA (pi f) (loc_dir loc') (pc (inner_of (m_n mA (pi f)) loc' (sp f q)) (loc_dir loc')) in
    match tyB f loc with
    | DIRICHLET => vaB f loc = sg f * vaA (pi f) loc'
    | NEUMANN => gB * vaB f loc = sg f * (gA * vaA (pi f) loc')
    | CONVECTIVE => p_dt PB * vaB f loc / gB = p_dt PA * vaA (pi f) loc' / gA
    | _ => True
    end.
Proof.
  rewrite dB, dA. intros Hf Hl Hp [Q1 Q2] sg pi sp. destruct Hbc as (B1 & B2 & B3). unfold sg, pi, sp. cbn [plane_map fm_sg fm_pi fm_pt].
  destruct (Z.eqb_spec f 2) as [->|N].
  - left. split; [reflexivity|]. destruct (Z_lt_dec loc 4) as [L|L]; [apply B2; lia|]. right. refine (proj2 (proj1 (B3 _ loc ltac:(lia)))).
    replace (loc_dir loc) with 2%Z in Hp; [exact Hp|]. unfold loc_dir. assert (loc = 4 \/ loc = 5)%Z as [->| ->] by lia; reflexivity.
  - right. destruct (Z_lt_dec loc 4) as [L|L].
    + right. exists loc. destruct (B1 f loc ltac:(lia) ltac:(lia)) as [-> ->].
      assert (Hd : (0 <= loc_dir loc < 2)%Z) by (unfold loc_dir; split; [apply Z.div_pos|apply Z.div_lt_upper_bound]; lia).
      assert (Eg : ghost_layer (m_n mA f) loc = ghost_layer (m_n mB f) loc) by (unfold ghost_layer; rewrite (pn f (loc_dir loc)) by lia; reflexivity).
      assert (Ei : inner_layer (m_n mA f) loc = inner_layer (m_n mB f) loc) by (unfold inner_layer; rewrite (pn f (loc_dir loc)) by lia; reflexivity).
      unfold is_ghost, inner_of. rewrite Eg, Ei, !in_plane_pc, !in_plane_setc by auto. rewrite !in_plane_pc, pper in * by auto. rewrite Q1.
      assert (Ep : pc (setc q (loc_dir loc) (inner_layer (m_n mB f) loc)) (loc_dir loc) = inner_layer (m_n mB f) loc) by (rewrite pc_setc, Z.eqb_refl by lia; reflexivity). rewrite Ep.
      split; [lia|]. split; [lia|]. split; [exact Hp|]. split; [split; [reflexivity|apply in_plane_interior; [lia|exact Q2]]|]. split; [reflexivity|]. split; [reflexivity|]. split; [reflexivity|].
      assert (Hdt : p_dt PB = p_dt PA) by apply Hsame. rewrite Hdt.
      assert (G : crd mB f (loc_dir loc) (ghost_layer (m_n mB f) loc) - crd mB f (loc_dir loc) (inner_layer (m_n mB f) loc) = crd mA f (loc_dir loc) (ghost_layer (m_n mB f) loc) - crd mA f (loc_dir loc) (inner_layer (m_n mB f) loc)).
      { pose proof (npos f (loc_dir loc) ltac:(lia) ltac:(lia)) as Np. unfold ghost_layer, inner_layer. rewrite (pn f (loc_dir loc)) by lia. destruct (_ =? _)%Z.
        - pose proof (pgap f (loc_dir loc) 0 ltac:(lia) Hd ltac:(lia)) as G0. replace (0 - 1)%Z with (-1)%Z in G0 by lia. lra.
        - apply pgap; lia. }
      rewrite G. destruct (tyA f loc); auto; ring.
    + left. destruct (B3 ltac:(replace 2%Z with (loc_dir loc); [exact Hp|unfold loc_dir; assert (loc = 4 \/ loc = 5)%Z as [->| ->] by lia; reflexivity]) loc ltac:(lia)) as [_ B4].
      destruct (B4 f ltac:(lia)) as [-> ->]. split; [reflexivity|]. split; [reflexivity|]. destruct q as [[i j] k]. unfold inner_of, loc_dir. assert (loc = 4 \/ loc = 5)%Z as [->| ->] by lia; reflexivity.
Qed.

(** Convection. *)
Lemma in_plane_shift q d x : (0 <= d < 2)%Z -> in_plane (shift q d x) = shift (in_plane q) d x.
Proof. intros H. destruct q as [[i j] k]. assert (d = 0 \/ d = 1)%Z as [->| ->] by lia; reflexivity. Qed.
Lemma plane_at w f q : (0 <= f < 2)%Z -> map_velocity plane_map w f q = w f (in_plane q).
Proof. intros H. unfold map_velocity. cbn [plane_map fm_sg fm_pi fm_pt]. destruct (Z.eqb_spec f 2); [lia|]. ring. Qed.
Lemma plane_at2 w q : map_velocity plane_map w 2 q = 0.
Proof. unfold map_velocity. cbn [plane_map fm_sg fm_pi fm_pt Z.eqb Pos.eqb]. ring. Qed.
Lemma plane_flux_at w f d p : (0 <= f < 2)%Z -> (0 <= d < 2)%Z -> momentum_flux (map_velocity plane_map w) f d p = momentum_flux w f d (in_plane p).
Proof. intros Hf Hd. unfold momentum_flux. rewrite !plane_at, !in_plane_shift by auto. reflexivity. Qed.
Lemma plane_convection w f p : (0 <= f < m_dim mB)%Z -> interior (m_n mB f) p ->
  convection_at mB (map_velocity plane_map w) f p = 1 * (fm_sg plane_map f * convection_at mA w (fm_pi plane_map f) (fm_pt plane_map f p)).
Proof.
  rewrite dB. intros Hf Hp. unfold convection_at. rewrite dA, dB, zsum_two, zsum_three. cbn [plane_map fm_sg fm_pi fm_pt]. destruct (Z.eqb_spec f 2) as [->|N].
  - unfold momentum_flux, Rdiv. rewrite !plane_at2. ring.
  - rewrite !(plane_flux_at w f 0), !(plane_flux_at w f 1), !in_plane_shift by lia. rewrite !in_plane_pc by lia.
    pose proof (in_plane_interior f p ltac:(lia) Hp) as Hp'. rewrite interior_pc in Hp'. pose proof (Hp' 0%Z ltac:(lia)) as I0. pose proof (Hp' 1%Z ltac:(lia)) as I1. rewrite !in_plane_pc in * by lia. rewrite !pwid by lia.
    replace (momentum_flux (map_velocity plane_map w) f 2 p) with 0 by (unfold momentum_flux, Rdiv; rewrite !plane_at2; ring).
    replace (momentum_flux (map_velocity plane_map w) f 2 (shift p 2 (-1))) with 0 by (unfold momentum_flux, Rdiv; rewrite !plane_at2; ring). unfold Rdiv. ring.
Qed.
Lemma plane_quiet w f p : (0 <= f < m_dim mB)%Z -> interior (m_n mB f) p -> ((0 <= f < 2)%Z -> quiet_walls mA DB w f (in_plane p)) -> quiet_walls mB DB (map_velocity plane_map w) f p.
Proof.
  rewrite dB. intros Hf Hp H d. rewrite dB. intros Hd N Hper. destruct (Z.eq_dec f 2) as [->|N2].
  { right. split; intros _; right; rewrite !plane_at2; ring. }
  destruct (Z.eq_dec d 2) as [->|N3]; [right; split; intros _; left; rewrite !plane_at2; auto|].
  rewrite pper in Hper by lia. pose proof (H ltac:(lia) d ltac:(lia) N Hper) as [[K1 K2]|[K1 K2]]; [left; split; [exact K1|rewrite pper by lia; exact K2]|]. right.
  rewrite in_plane_pc in K1, K2 by lia. rewrite (pn f d) by lia. rewrite !plane_at, !in_plane_shift by lia. auto.
Qed.

Variables (tA tB : R) (nA nB : Z) (UA qA UB qB : vec) (OA OB : nsops) (a0 b0 : nsstate) (vsA psA vsB psB : vec -> vec -> vec).
Let mvp k x y := mv plane_map mA mB DA DB k x y.
Lemma plane_mv x y : plane_velocity mA DA mB DB x y <-> mvp 1 x y.
Proof.
  unfold mvp, mv, plane_velocity. rewrite dB, dA. split.
  - intros [H1 H2] f p Hf Hp. cbn [plane_map fm_sg fm_pi fm_pt]. pose proof (idx_spec mB DB f p FB ltac:(lia) Hp) as [_ IB]. rewrite dB in IB. destruct (Z.eqb_spec f 2) as [->|N].
    + rewrite (H2 _ _ IB). ring.
    + destruct p as [[i j] k]. pose proof (idx_spec mA DA f _ FA ltac:(lia) (in_plane_interior f (i, j, k) ltac:(lia) Hp)) as [_ IA]. rewrite dA in IA. rewrite (H1 _ _ f i j k ltac:(lia) IB IA). ring.
  - intros H. split.
    + intros idA idB f i j k Hf IB IA. rewrite <- dB in IB. rewrite <- dA in IA. destruct (velocity_row mB DB idB _ _ FB IB) as (_ & Hp & -> & _). destruct (velocity_row mA DA idA _ _ FA IA) as (_ & _ & -> & _).
      rewrite (H f (i, j, k) ltac:(lia) Hp). cbn [plane_map fm_sg fm_pi fm_pt in_plane]. destruct (Z.eqb_spec f 2); [lia|]. ring.
    + intros idB p IB. rewrite <- dB in IB. destruct (velocity_row mB DB idB _ _ FB IB) as (_ & Hp & -> & _). rewrite (H 2%Z p ltac:(lia) Hp). cbn [plane_map fm_sg Z.eqb Pos.eqb]. ring.
Qed.
Lemma plane_mp x y a : (forall idA idB i j k, nthZ (field_layout DB 3) idB = Some (i, j, k) -> nthZ (field_layout DA 3) idA = Some (i, j, 0%Z) -> y idB + a = x idA) <->
  mp plane_map mA mB DA DB x (fun i => y i + a).
Proof.
  unfold mp. split.
  - intros H p Hp. cbn [plane_map fm_pf fm_pt Z.eqb Pos.eqb]. destruct p as [[i j] k].
    rewrite (H _ _ i j k (proj2 (pidx_spec mB DB _ FB Hp)) (proj2 (pidx_spec mA DA _ FA (plane_cell _ Hp)))). cbn [plane_map fm_pt Z.eqb Pos.eqb in_plane]. ring.
  - intros H idA idB i j k IB IA. destruct (pressure_row mB DB idB _ FB IB) as (Hp & -> & _). destruct (pressure_row mA DA idA _ FA IA) as (_ & -> & _).
    rewrite (H _ Hp). cbn [plane_map fm_pf fm_pt Z.eqb Pos.eqb in_plane]. ring.
Qed.

Hypotheses (HmA : periodic_min mA 3) (HmB : periodic_min mB 3) (HnA : no_normal_neumann mA tyA).
Hypotheses (Hbn : p_bn PA = 1%Z) (Hdt : 0 < p_dt PA) (Hc : 0 <= p_dimp PA * p_nu PA).
Hypotheses (HclA : p_refp PA = true -> impermeable mA tyA vaA) (HclB : p_refp PB = true -> impermeable mA tyA vaA).
Hypothesis Hwalls : impermeable mA tyA vaA \/ (whole_planes mA DA /\ whole_planes mB DB).
Hypothesis HIA : ns_init mA DA PA tyA vaA tA nA UA qA = Ok (OA, a0).
Hypothesis HIB : ns_init mB DB PB tyB vaB tB nB UB qB = Ok (OB, b0).
Hypothesis HU : plane_velocity mA DA mB DB UA UB.
Hypothesis Hq : plane_pressure DA DB qA qB.

Lemma plane_neumann : (forall loc, (4 <= loc < 6)%Z -> tyB 2%Z loc <> NEUMANN) -> no_normal_neumann mB tyB.
Proof.
  intros H2 f. rewrite dB. intros Hf. destruct (Z.eq_dec f 2) as [->|N]; [split; apply H2; lia|].
  destruct Hbc as (B1 & _). destruct (HnA f ltac:(lia)) as [K1 K2]. rewrite (proj1 (B1 f (2 * f)%Z ltac:(lia) ltac:(lia))), (proj1 (B1 f (2 * f + 1)%Z ltac:(lia) ltac:(lia))). auto.
Qed.
Lemma plane_top loc : (4 <= loc < 6)%Z -> tyB 2%Z loc <> NEUMANN.
Proof.
  intros Hl. destruct Hbc as (_ & _ & B3). assert (Ed : loc_dir loc = 2%Z) by (unfold loc_dir; assert (loc = 4 \/ loc = 5)%Z as [->| ->] by lia; reflexivity).
  destruct (periodic_dir mB 2) eqn:E.
  - destruct (HbB 2%Z loc ltac:(lia) ltac:(lia)) as [_ K]. rewrite Ed, E in K. intros X. rewrite (proj2 K eq_refl) in X. discriminate.
  - destruct (B3 eq_refl loc Hl) as [[-> _] _]. discriminate.
Qed.
Lemma plane_impermeable : impermeable mA tyA vaA -> impermeable mB tyB vaB.
Proof.
  intros H f loc. rewrite dB. intros Hf Hl E Hp. destruct Hbc as (B1 & _ & B3). destruct (Z.eq_dec f 2) as [->|N].
  - apply (B3 Hp loc). apply Z.div_unique_exact in E || idtac. assert (K := Z.div_mod loc 2 ltac:(lia)). pose proof (Z.mod_pos_bound loc 2 ltac:(lia)). lia.
  - assert (Hl4 : (0 <= loc < 4)%Z) by (assert (K := Z.div_mod loc 2 ltac:(lia)); pose proof (Z.mod_pos_bound loc 2 ltac:(lia)); lia).
    destruct (B1 f loc ltac:(lia) Hl4) as [-> ->]. rewrite pper in Hp by lia. apply H; auto; lia.
Qed.
Lemma plane_conv_related hA hB BA BB xA xB yA yB : boundary_after mA DA tyA vaA ([OpICs UA] ++ hA) BA -> boundary_after mB DB tyB vaB ([OpICs UB] ++ hB) BB ->
  Forall2 (mcall plane_map mA mB DA DB PA PB) hA hB -> mvp 1 xA xB -> current ([OpICs UB] ++ hB) xB -> convection mA DA BA xA = Ok yA -> convection mB DB BB xB = Ok yB -> mvp 1 yA yB.
Proof.
  intros HA HB Hh Hx Cu EA EB. destruct (convection_inv _ _ _ _ _ EA) as (CA & EA'). destruct (convection_inv _ _ _ _ _ EB) as (CB & EB').
  destruct (extends_box_exists mA DA tyA vaA _ _ xA FA HbA HA) as (u & HX). pose proof (corner0_extends mA DA tyA vaA _ BA xA u FA HbA HA HX) as HXA.
  assert (Hh' : Forall2 (mcall plane_map mA mB DA DB PA PB) ([OpICs UA] ++ hA) ([OpICs UB] ++ hB)) by (apply Forall2_app; auto; repeat constructor; now apply plane_mv).
  pose proof (mapped_extends plane_map mA mB DA DB tyA tyB vaA vaB PA PB HsA HsB HbA HbB plane_pt plane_repeats plane_ghost _ _ BA BB xA xB _ HA HB Hh' Hx Cu HXA) as HXB.
  assert (QA : forall D', (D' = DA \/ D' = DB) -> forall f p, (0 <= f < m_dim mA)%Z -> interior (m_n mA f) p -> quiet_walls mA D' (corner0 mA u) f p).
  { intros D' HD f p Hf Hp. destruct Hwalls as [Hi|[W1 W2]].
    - apply (quiet_impermeable mA DA D' tyA vaA ([OpICs UA] ++ hA) BA xA u); auto. exists UA. now left.
    - intros d Hd N Hper. left. destruct HD as [->| ->]; [apply W1; lia|]. split; [apply W2; lia|apply W1; lia]. }
  intros f p Hf Hp. destruct (plane_pt f p Hf Hp) as [Hf' Hp'].
  rewrite (conv_value mB DB tyB vaB _ _ BB xB _ yB CB _ f p HsB HbB (cs_new _ _ _ _) HB HXB EB' (proj2 (idx_spec mB DB f p FB Hf Hp))).
  - rewrite (conv_value mA DA tyA vaA _ _ BA xA _ yA CA _ _ _ HsA HbA (cs_new _ _ _ _) HA HXA EA' (proj2 (idx_spec mA DA _ _ FA Hf' Hp'))) by (apply QA; auto). now apply plane_convection.
  - apply plane_quiet; auto. intros Hf2. apply QA; [auto|rewrite dA; lia|now apply in_plane_interior].
Qed.

Lemma plane_run k sA sB : exact_run mA DA PA OA (convection mA DA) vsA psA a0 k -> exact_run mB DB PB OB (convection mB DB) vsB psB b0 k ->
  ns_steps mA DA PA OA (convection mA DA) vsA psA k a0 = Ok sA -> ns_steps mB DB PB OB (convection mB DB) vsB psB k b0 = Ok sB ->
  plane_velocity mA DA mB DB (s_U sA) (s_U sB) /\ plane_pressure DA DB (s_p sA) (s_p sB).
Proof.
  intros XA XB EA EB. destruct Hsame as (S1 & S2 & S3 & S4 & S5 & S6).
  assert (Hq' : exists a, mp plane_map mA mB DA DB qA (fun i => qB i + a)) by (destruct Hq as (a & Ha); exists a; now apply plane_mp).
  destruct (mrun plane_map mA mB DA DB tyA tyB vaA vaB PA PB 1 HsA HsB HbA HbB plane_pt plane_repeats plane_lap plane_grad plane_flux plane_ghost
    tA tB nA nB UA qA UB qB OA OB a0 b0 (convection mA DA) (convection mB DB) vsA psA vsB psB HmA HmB HnA (plane_neumann plane_top) Hbn ltac:(congruence) Hdt ltac:(rewrite S1; exact Hdt) ltac:(rewrite S4, S2; exact Hc)
    S4 S5 S6 ltac:(rewrite S1; ring) HclA ltac:(intros E; apply plane_impermeable; auto) HIA HIB ltac:(now apply plane_mv) Hq' plane_conv_related k sA sB XA XB EA EB) as (_ & RU & (a & Rp) & _).
  split; [now apply plane_mv|]. exists a. now apply plane_mp.
Qed.
End Plane.
