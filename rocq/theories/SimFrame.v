(** Runs in other axes and units. *)
From Coq Require Import Lia ZifyBool List Lra.
Import ListNotations.
From Verif Require Import Prelude ZSum RSum TypesModel GridModel GridSpec GridProof MeshProof
  IndexModel IndexSpec IndexProof BoundaryModel BoundarySpec BoundaryProof OperatorModel OperatorSpec OperatorProof BStateProof LapProof DivProof GradProof
  AdjProof SymProof MatModel BnModel NSModel NSSpec NSProof NSPin LinAlg NSProps UniqueProof UniqueProps OperatorProps AlgebraProps
  ConvModel ConvSpec ConvProof ConvValue ConvTotal ConvProps EnergySpec EnergyProof EnergyRun IbpmProps DecSpec DecProof DecConv SteadySpec SteadyProof
  WidthProof SimSpec SimOne SimProof SimPlane.
From Verif Require VortCurl.
Local Open Scope R_scope.

Section Frame.
Variables (F : frame) (mA mB : mesh) (DA DB : dec) (tyA tyB : Z -> Z -> bctype) (vaA vaB : Z -> Z -> R) (PA PB : nspar).
Hypotheses (HsA : mesh_setup mA DA) (HsB : mesh_setup mB DB) (HbA : bc_fits mA tyA) (HbB : bc_fits mB tyB).
Hypotheses (HF : frame_ok (m_dim mA) F) (Hfr : framed F mA mB) (Hbc : framed_bc F mB tyA tyB vaA vaB) (Hsc : framed_scheme F PA PB).
Let FA : mfacts mA DA := setup_facts _ _ HsA.
Let FB : mfacts mB DB := setup_facts _ _ HsB.
Let ax := fr_axis F.
Let bk := fr_back F.
Let len := fr_len F.
Let vel := fr_vel F.
Definition frame_map : fmap := mkMap (fun f => vel * sign F f) ax (fun f p => frame_point F (m_n mB f) p) (vel * vel).
Let sp f p := frame_point F (m_n mB f) p.
Let rv f d i := (if fr_flip F d then m_n mB f d - 1 - i else i)%Z.

Lemma fdim : m_dim mB = m_dim mA.
Proof. apply Hfr. Qed.
Lemma dim23 : (m_dim mA = 2 \/ m_dim mA = 3)%Z.
Proof. apply (mf_dim _ _ FA). Qed.
Lemma lenpos : 0 < len.
Proof. apply HF. Qed.
Lemma velpos : 0 < vel.
Proof. apply HF. Qed.
Lemma ax3 d : (0 <= d < 3)%Z -> (0 <= ax d < 3)%Z.
Proof. intros H. apply HF. exact H. Qed.
Lemma bk3 d : (0 <= d < 3)%Z -> (0 <= bk d < 3)%Z.
Proof. intros H. apply HF. exact H. Qed.
Lemma bkax d : (0 <= d < 3)%Z -> bk (ax d) = d.
Proof. intros H. apply HF. exact H. Qed.
Lemma axbk d : (0 <= d < 3)%Z -> ax (bk d) = d.
Proof. intros H. apply HF. exact H. Qed.
Lemma axdim d : (0 <= d < m_dim mA)%Z -> (0 <= ax d < m_dim mA)%Z.
Proof. intros H. apply HF. exact H. Qed.
Lemma ax_inj d e : (0 <= d < 3)%Z -> (0 <= e < 3)%Z -> ax d = ax e -> d = e.
Proof. intros Hd He E. rewrite <- (bkax d Hd), <- (bkax e He), E. reflexivity. Qed.
Lemma ax_eqb d e : (0 <= d < 3)%Z -> (0 <= e < 3)%Z -> (ax d =? ax e)%Z = (d =? e)%Z.
Proof. intros Hd He. destruct (Z.eqb_spec d e) as [->|N]; [apply Z.eqb_refl|]. apply Z.eqb_neq. intros E. apply N. now apply ax_inj. Qed.
Lemma ax_bk_eqb e d : (0 <= d < 3)%Z -> (0 <= e < 3)%Z -> (bk e =? d)%Z = (e =? ax d)%Z.
Proof. intros Hd He. rewrite <- (axbk e He) at 2. symmetry. apply ax_eqb; auto. now apply bk3. Qed.
Lemma sign2 d : sign F d * sign F d = 1.
Proof. unfold sign. destruct (fr_flip F d); ring. Qed.
Lemma fper d : (0 <= d < 3)%Z -> periodic_dir mB d = periodic_dir mA (ax d).
Proof. intros H. apply (proj1 (proj2 Hfr) d H). Qed.
Lemma fflip d : (0 <= d < 3)%Z -> fr_flip F d = true -> periodic_dir mB d = false.
Proof. intros H. apply (proj1 (proj2 Hfr) d H). Qed.
Lemma ax_flat : m_dim mA = 2%Z -> ax 2 = 2%Z.
Proof.
  intros E. pose proof (axdim 0 ltac:(lia)). pose proof (axdim 1 ltac:(lia)). pose proof (ax3 2 ltac:(lia)).
  pose proof (ax_inj 0 2 ltac:(lia) ltac:(lia)). pose proof (ax_inj 1 2 ltac:(lia) ltac:(lia)). pose proof (ax_inj 0 1 ltac:(lia) ltac:(lia)). lia.
Qed.
Lemma fn3 d : (0 <= d < 3)%Z -> m_n mB 3 d = m_n mA 3 (ax d).
Proof.
  intros Hd. destruct (Z_lt_dec d (m_dim mA)) as [L|L]; [apply (proj2 (proj2 Hfr)); lia|].
  assert (E : m_dim mA = 2%Z) by (destruct dim23; lia). replace d with 2%Z by lia. rewrite (ax_flat E).
  rewrite (proj1 (mf_flat _ _ FA 3 ltac:(lia) E)), (proj1 (mf_flat _ _ FB 3 ltac:(lia) ltac:(rewrite fdim; exact E))). reflexivity.
Qed.
Lemma fn f d : (0 <= f < m_dim mA)%Z -> (0 <= d < 3)%Z -> m_n mB f d = m_n mA (ax f) (ax d).
Proof.
  intros Hf Hd. pose proof (axdim f Hf) as Hf'. pose proof (ax3 d Hd) as Hd'. pose proof dim23. destruct (Z.eq_dec f d) as [->|N].
  - rewrite (mf_n_own _ _ FB d), (mf_n_own _ _ FA (ax d)), fper, fn3 by (rewrite ?fdim; lia). reflexivity.
  - rewrite (mf_n_oth _ _ FB f d), (mf_n_oth _ _ FA (ax f) (ax d)), fn3 by (rewrite ?fdim; try lia; intros E; apply N; apply ax_inj; lia || exact E). reflexivity.
Qed.
Lemma fpos f d : (0 <= f < m_dim mA \/ f = 3)%Z -> (0 <= d < 3)%Z -> (1 <= m_n mB f d)%Z.
Proof. intros Hf Hd. pose proof (mf_np _ _ FB f d ltac:(rewrite fdim; lia) Hd). lia. Qed.
Lemma fcw d i : (0 <= d < m_dim mA)%Z -> (-1 <= i <= m_n mB 3 d)%Z -> cw mB d i = len * cw mA (ax d) (rv 3 d i).
Proof.
  intros Hd Hi. pose proof dim23. pose proof (fpos 3 d ltac:(lia) ltac:(lia)) as Np. destruct (proj2 (proj2 Hfr) d Hd) as (N & W). fold len ax in W. fold ax in N.
  pose proof (fper d ltac:(lia)) as Pe. pose proof (fflip d ltac:(lia)) as Fl. unfold cw, rv. rewrite <- N. rewrite Pe in *.
  destruct (fr_flip F d).
  - rewrite (Fl eq_refl). destruct (Z.ltb_spec i 0), (Z.ltb_spec (m_n mB 3 d - 1 - i) 0), (Z.ltb_spec i (m_n mB 3 d)), (Z.ltb_spec (m_n mB 3 d - 1 - i) (m_n mB 3 d)); try lia; rewrite W by lia; f_equal; f_equal; lia.
  - destruct (Z.ltb_spec i 0), (Z.ltb_spec i (m_n mB 3 d)), (periodic_dir mA (ax d)); try lia; rewrite W by lia; reflexivity.
Qed.
Lemma fgap f d i : (0 <= f < m_dim mA)%Z -> (0 <= d < m_dim mA)%Z -> (0 <= i <= m_n mB f d)%Z ->
  let j := (if fr_flip F d then m_n mB f d - i else i)%Z in crd mB f d i - crd mB f d (i - 1) = len * (crd mA (ax f) (ax d) j - crd mA (ax f) (ax d) (j - 1)).
Proof.
  intros Hf Hd Hi j. pose proof dim23. pose proof (axdim f Hf) as Hf'. pose proof (axdim d Hd) as Hd'. pose proof (fn f d Hf ltac:(lia)) as Nn.
  assert (Hj : (0 <= j <= m_n mA (ax f) (ax d))%Z) by (unfold j; rewrite <- Nn; destruct (fr_flip F d); lia).
  destruct (Z.eq_dec f d) as [->|N].
  - rewrite (own_gap mB DB HsB d i), (own_gap mA DA HsA (ax d) j) by (rewrite ?fdim; lia). pose proof (mf_n_own _ _ FB d ltac:(rewrite fdim; lia)) as No.
    rewrite fcw by (auto; destruct (periodic_dir mB d); lia). f_equal. f_equal. unfold rv, j. destruct (fr_flip F d) eqn:E; [|reflexivity]. rewrite (fflip d ltac:(lia) E) in No. lia.
  - assert (Na : ax f <> ax d) by (intros E; apply N; apply ax_inj; lia || exact E). pose proof (mf_n_oth _ _ FB f d ltac:(rewrite fdim; lia) ltac:(lia) N) as No.
    rewrite (oth_gap mB DB HsB f d i), (oth_gap mA DA HsA (ax f) (ax d) j) by (rewrite ?fdim; auto; lia). rewrite !fcw by lia. unfold rv, j. destruct (fr_flip F d).
    + replace (m_n mB 3 d - 1 - (i - 1))%Z with (m_n mB f d - i)%Z by lia. replace (m_n mB 3 d - 1 - i)%Z with (m_n mB f d - i - 1)%Z by lia. field.
    + field.
Qed.
Lemma fwid f d i : (0 <= f < m_dim mA)%Z -> (0 <= d < m_dim mA)%Z -> (0 <= i < m_n mB f d)%Z -> wid mB f d i = len * wid mA (ax f) (ax d) (rv f d i).
Proof.
  intros Hf Hd Hi. pose proof dim23. pose proof (axdim f Hf) as Hf'. pose proof (axdim d Hd) as Hd'. pose proof (fn f d Hf ltac:(lia)) as Nn.
  assert (Hj : (0 <= rv f d i < m_n mA (ax f) (ax d))%Z) by (unfold rv; rewrite <- Nn; destruct (fr_flip F d); lia).
  destruct (Z.eq_dec f d) as [->|N].
  - rewrite (own_wid mB DB HsB d i), (own_wid mA DA HsA (ax d) (rv d d i)) by (rewrite ?fdim; lia). pose proof (mf_n_own _ _ FB d ltac:(rewrite fdim; lia)) as No.
    rewrite !fcw by (auto; destruct (periodic_dir mB d); lia). unfold rv. destruct (fr_flip F d) eqn:E; [|field]. rewrite (fflip d ltac:(lia) E) in No.
    replace (m_n mB 3 d - 1 - i)%Z with (m_n mB d d - 1 - i + 1)%Z by lia. replace (m_n mB 3 d - 1 - (i + 1))%Z with (m_n mB d d - 1 - i)%Z by lia. field.
  - assert (Na : ax f <> ax d) by (intros E; apply N; apply ax_inj; lia || exact E). pose proof (mf_n_oth _ _ FB f d ltac:(rewrite fdim; lia) ltac:(lia) N) as No.
    rewrite (oth_wid mB DB HsB f d i), (oth_wid mA DA HsA (ax f) (ax d) (rv f d i)) by (rewrite ?fdim; auto; lia). rewrite fcw by lia. unfold rv. rewrite No. reflexivity.
Qed.

(** Points. *)
Lemma sp_pc f p e : (0 <= e < 3)%Z -> pc (sp f p) e = rv f (bk e) (pc p (bk e)).
Proof. intros He. unfold sp, frame_point. destruct (pt_cases e He) as [->|[->| ->]]; reflexivity. Qed.
Lemma sp_ax f p d : (0 <= d < 3)%Z -> pc (sp f p) (ax d) = rv f d (pc p d).
Proof. intros Hd. rewrite sp_pc by (now apply ax3). now rewrite bkax. Qed.
Lemma sp_setc f p d i : (0 <= d < 3)%Z -> sp f (setc p d i) = setc (sp f p) (ax d) (rv f d i).
Proof.
  intros Hd. apply pt_ext. intros e He. pose proof (ax3 d Hd). pose proof (bk3 e He). rewrite sp_pc, !pc_setc, sp_pc by auto. rewrite ax_bk_eqb by auto.
  destruct (Z.eqb_spec e (ax d)) as [->|]; [|reflexivity]. now rewrite bkax.
Qed.
Definition turn d s := (if fr_flip F d then - s else s)%Z.
Lemma rv_add f d i s : rv f d (i + s) = (rv f d i + turn d s)%Z.
Proof. unfold rv, turn. destruct (fr_flip F d); lia. Qed.
Lemma sp_shift f p d s : (0 <= d < 3)%Z -> sp f (shift p d s) = shift (sp f p) (ax d) (turn d s).
Proof. intros Hd. unfold shift. rewrite sp_setc by auto. rewrite sp_ax by auto. now rewrite rv_add. Qed.
Lemma sp_interior f p : (0 <= f < m_dim mA)%Z -> interior (m_n mB f) p -> interior (m_n mA (ax f)) (sp f p).
Proof.
  intros Hf Hp. rewrite interior_pc in *. intros e He. pose proof (bk3 e He) as Hb. rewrite sp_pc by auto. specialize (Hp _ Hb).
  assert (E : m_n mA (ax f) e = m_n mB f (bk e)) by (rewrite fn, axbk by auto; reflexivity). rewrite E. unfold rv. destruct (fr_flip F (bk e)); lia.
Qed.
Lemma sp3_interior p : interior (m_n mB 3) p -> interior (m_n mA 3) (sp 3 p).
Proof.
  intros Hp. rewrite interior_pc in *. intros e He. pose proof (bk3 e He) as Hb. rewrite sp_pc by auto. specialize (Hp _ Hb).
  assert (E : m_n mA 3 e = m_n mB 3 (bk e)) by (rewrite fn3, axbk by auto; reflexivity). rewrite E. unfold rv. destruct (fr_flip F (bk e)); lia.
Qed.
(** The image of a point of component f, as a point of component d. *)
Lemma rv_same f g d i : m_n mB f d = m_n mB g d -> rv f d i = rv g d i.
Proof. intros E. unfold rv. now rewrite E. Qed.
Let fl d := (if fr_flip F d then 1 else 0)%Z.
Lemma rv_own f d i : (0 <= f < m_dim mA)%Z -> (0 <= d < m_dim mA)%Z -> f <> d -> rv d d i = (rv f d i - fl d)%Z.
Proof.
  intros Hf Hd N. pose proof dim23. pose proof (mf_n_own _ _ FB d ltac:(rewrite fdim; lia)) as E1. pose proof (mf_n_oth _ _ FB f d ltac:(rewrite fdim; lia) ltac:(lia) N) as E2.
  pose proof (fflip d ltac:(lia)) as Fl. unfold rv, fl. destruct (fr_flip F d); [rewrite (Fl eq_refl) in E1; lia|lia].
Qed.
Lemma rv_cell d i : (0 <= d < m_dim mA)%Z -> rv d d i = (rv 3 d i - fl d)%Z.
Proof.
  intros Hd. pose proof dim23. pose proof (mf_n_own _ _ FB d ltac:(rewrite fdim; lia)) as E1. pose proof (fflip d ltac:(lia)) as Fl. unfold rv, fl. destruct (fr_flip F d); [rewrite (Fl eq_refl) in E1; lia|lia].
Qed.
Lemma sp_other f d q : (0 <= f < m_dim mA)%Z -> (0 <= d < m_dim mA)%Z -> f <> d -> sp d q = shift (shift (sp f q) (ax d) (- fl d)) (ax f) (fl f).
Proof.
  intros Hf Hd N. pose proof dim23. apply pt_ext. intros e He. pose proof (bk3 e He) as Hb. pose proof (ax3 d ltac:(lia)) as A1. pose proof (ax3 f ltac:(lia)) as A2. rewrite !pc_shift2, !sp_pc by auto.
  rewrite <- !ax_bk_eqb by lia. destruct (Z.eqb_spec (bk e) f) as [->|N1].
  - destruct (Z.eqb_spec f d); [lia|]. rewrite (rv_own d f) by auto. lia.
  - destruct (Z.eqb_spec (bk e) d) as [->|N2]; [rewrite (rv_own f d) by auto; lia|]. apply rv_same. rewrite (mf_n_oth _ _ FB d (bk e)), (mf_n_oth _ _ FB f (bk e)) by (rewrite ?fdim; lia). reflexivity.
Qed.
Lemma sp_cell f q : (0 <= f < m_dim mA)%Z -> sp f q = shift (sp 3 q) (ax f) (- fl f).
Proof.
  intros Hf. pose proof dim23. apply pt_ext. intros e He. pose proof (bk3 e He) as Hb. pose proof (ax3 f ltac:(lia)) as A2. rewrite !pc_shift2, !sp_pc by auto.
  rewrite <- !ax_bk_eqb by lia. destruct (Z.eqb_spec (bk e) f) as [->|N1]; [rewrite rv_cell by auto; lia|]. apply rv_same. apply (mf_n_oth _ _ FB f (bk e)); rewrite ?fdim; lia.
Qed.

(** The operators. *)
Lemma at_map w f q : map_velocity frame_map w f q = vel * sign F f * w (ax f) (sp f q).
Proof. reflexivity. Qed.
Lemma zsum_axes g : zsum (fun d => g (ax d)) 0 (m_dim mA) = zsum g 0 (m_dim mA).
Proof.
  pose proof (ax_inj 0 1 ltac:(lia) ltac:(lia)). pose proof (ax_inj 0 2 ltac:(lia) ltac:(lia)). pose proof (ax_inj 1 2 ltac:(lia) ltac:(lia)).
  destruct dim23 as [E|E].
  - pose proof (axdim 0 ltac:(lia)). pose proof (axdim 1 ltac:(lia)). rewrite E, !zsum_two.
    assert (ax 0 = 0 /\ ax 1 = 1 \/ ax 0 = 1 /\ ax 1 = 0)%Z as [[-> ->]|[-> ->]] by lia; ring.
  - pose proof (ax3 0 ltac:(lia)). pose proof (ax3 1 ltac:(lia)). pose proof (ax3 2 ltac:(lia)). rewrite E, !zsum_three.
    destruct (pt_cases (ax 0) ltac:(lia)) as [E0|[E0|E0]], (pt_cases (ax 1) ltac:(lia)) as [E1|[E1|E1]], (pt_cases (ax 2) ltac:(lia)) as [E2|[E2|E2]]; try lia; rewrite E0, E1, E2; ring.
Qed.
Lemma frame_pt f p : (0 <= f < m_dim mB)%Z -> interior (m_n mB f) p -> (0 <= fm_pi frame_map f < m_dim mA)%Z /\ interior (m_n mA (fm_pi frame_map f)) (fm_pt frame_map f p).
Proof. rewrite fdim. intros Hf Hp. split; [now apply axdim|]. now apply sp_interior. Qed.
Lemma sp_image g nA q : (forall d, (0 <= d < 3)%Z -> nA (ax d) = m_n mB g d) -> (forall d, (0 <= d < 3)%Z -> fr_flip F d = true -> (0 <= pc q d < m_n mB g d)%Z) ->
  sp g (image (m_n mB g) q) = image nA (sp g q).
Proof.
  intros Hn Hq. apply pt_ext. intros e He. pose proof (bk3 e He) as Hb. rewrite pc_image, !sp_pc, pc_image by auto. specialize (Hq _ Hb). assert (En : nA e = m_n mB g (bk e)) by (rewrite <- Hn, axbk by auto; reflexivity). rewrite En.
  unfold rv. destruct (fr_flip F (bk e)); [|reflexivity]. rewrite !IndexProof.wrap_in by (specialize (Hq eq_refl); lia). reflexivity.
Qed.
Lemma frame_repeats u : repeats mA u -> repeats mB (map_velocity frame_map u).
Proof.
  intros H f q. rewrite fdim. intros Hf Hq Hi. rewrite !at_map. f_equal. rewrite in_frame_pc in Hq. rewrite has_image_pc in Hi. 
  assert (Hin : forall d, (0 <= d < 3)%Z -> fr_flip F d = true -> (0 <= pc q d < m_n mB f d)%Z).
  { intros d Hd Fl. specialize (Hi d Hd). rewrite (fflip d Hd Fl) in Hi. unfold outside in Hi. lia. }
  rewrite (sp_image f (m_n mA (ax f))) by (auto; intros d Hd; symmetry; now apply fn). apply H; [now apply axdim|..].
  - apply in_frame_pc. intros e He. pose proof (bk3 e He) as Hb. rewrite sp_pc by auto. assert (E : m_n mA (ax f) e = m_n mB f (bk e)) by (rewrite fn, axbk by auto; reflexivity). rewrite E.
    specialize (Hq _ Hb). specialize (Hin _ Hb). unfold rv. destruct (fr_flip F (bk e)); lia.
  - apply has_image_pc. intros e He. pose proof (bk3 e He) as Hb. rewrite sp_pc by auto. assert (E : m_n mA (ax f) e = m_n mB f (bk e)) by (rewrite fn, axbk by auto; reflexivity). rewrite E.
    assert (E2 : periodic_dir mA e = periodic_dir mB (bk e)) by (rewrite fper, axbk by auto; reflexivity). rewrite E2.
    specialize (Hi _ Hb). specialize (Hin _ Hb). unfold rv. destruct (fr_flip F (bk e)); [unfold outside; lia|exact Hi].
Qed.
Lemma fsecond f d u p : (0 <= f < m_dim mA)%Z -> (0 <= d < m_dim mA)%Z -> interior (m_n mB f) p ->
  second_difference mB f d (fun i => map_velocity frame_map u f (setc p d i)) (pc p d) =
  vel * sign F f / (len * len) * second_difference mA (ax f) (ax d) (fun j => u (ax f) (setc (sp f p) (ax d) j)) (pc (sp f p) (ax d)).
Proof.
  intros Hf Hd Hp. pose proof dim23. rewrite interior_pc in Hp. pose proof (Hp d ltac:(lia)) as Hi. unfold second_difference. rewrite !at_map, !sp_setc, !sp_ax by lia. rewrite fwid by auto.
  pose proof (fgap f d (pc p d) Hf Hd ltac:(lia)) as G0. pose proof (fgap f d (pc p d + 1) Hf Hd ltac:(lia)) as G1. cbv zeta in G0, G1. replace (pc p d + 1 - 1)%Z with (pc p d) in G1 by lia. rewrite G0, G1. unfold rv.
  destruct (fr_flip F d).
  - replace (m_n mB f d - 1 - (pc p d + 1))%Z with (m_n mB f d - 1 - pc p d - 1)%Z by lia. replace (m_n mB f d - 1 - (pc p d - 1))%Z with (m_n mB f d - 1 - pc p d + 1)%Z by lia.
    replace (m_n mB f d - (pc p d + 1))%Z with (m_n mB f d - 1 - pc p d)%Z by lia. replace (m_n mB f d - pc p d - 1)%Z with (m_n mB f d - 1 - pc p d)%Z by lia. replace (m_n mB f d - pc p d)%Z with (m_n mB f d - 1 - pc p d + 1)%Z by lia.
    unfold Rdiv. rewrite !Rinv_mult. ring.
  - replace (pc p d + 1 - 1)%Z with (pc p d) by lia. unfold Rdiv. rewrite !Rinv_mult. ring.
Qed.
Definition kap := vel / len.
Lemma frame_lap u f p : repeats mA u -> (0 <= f < m_dim mB)%Z -> interior (m_n mB f) p ->
  p_nu PB * laplacian_at mB f (map_velocity frame_map u) p = kap * (fm_sg frame_map f * (p_nu PA * laplacian_at mA (fm_pi frame_map f) u (fm_pt frame_map f p))).
Proof.
  intros _. rewrite fdim. intros Hf Hp. unfold laplacian_at. rewrite fdim.
  rewrite (zsum_ext _ (fun d => vel * sign F f / (len * len) * second_difference mA (ax f) (ax d) (fun j => u (ax f) (setc (sp f p) (ax d) j)) (pc (sp f p) (ax d)))) by (intros d Hd; now apply fsecond).
  rewrite VortCurl.zsum_scal. rewrite (zsum_axes (fun e => second_difference mA (ax f) e (fun j => u (ax f) (setc (sp f p) e j)) (pc (sp f p) e))).
  replace (p_nu PB) with (len * vel * p_nu PA) by (symmetry; apply Hsc). cbn [frame_map fm_sg fm_pi fm_pt]. fold (sp f p). unfold kap. pose proof lenpos. field. lra.
Qed.
Lemma frame_grad pr f p : (0 <= f < m_dim mB)%Z -> interior (m_n mB f) p ->
  gradient_at mB false (map_pressure frame_map pr) f p = kap * (fm_sg frame_map f * gradient_at mA false pr (fm_pi frame_map f) (fm_pt frame_map f p)).
Proof.
  rewrite fdim. intros Hf Hp. pose proof dim23. pose proof (axdim f Hf) as Hf'. pose proof Hp as Hp'. rewrite interior_pc in Hp. pose proof (Hp f ltac:(lia)) as Hi. unfold gradient_at, map_pressure. cbn [frame_map fm_sg fm_pi fm_pt fm_pf]. fold (sp f p). fold (sp 3 p). fold (sp 3 (image (m_n mB 3) (shift p f 1))).
  rewrite fwid by auto. rewrite <- sp_ax by lia. rewrite (sp_image 3 (m_n mA 3)).
  - rewrite sp_shift by lia. pose proof (sp_cell f p Hf) as E. unfold fl in E. unfold turn, sign, kap. destruct (fr_flip F f) eqn:Fl.
    + assert (E' : sp 3 p = shift (sp f p) (ax f) 1) by (rewrite E; unfold Z.opp; now rewrite shift_back). rewrite E'. rewrite VortCurl.shift_shift. change (1 + - (1))%Z with 0%Z. rewrite VortCurl.shift_0.
      rewrite !VortCurl.image_id. { unfold Rdiv. rewrite !Rinv_mult. ring. }
      * rewrite <- E'. apply sp3_interior. apply interior_pc. intros d Hd. pose proof (Hp d Hd). destruct (Z.eq_dec d f) as [->|N]; [|rewrite (mf_n_oth _ _ FB f d) in * by (rewrite ?fdim; lia); lia].
        pose proof (mf_n_own _ _ FB f ltac:(rewrite fdim; lia)) as No. rewrite (fflip f ltac:(lia) Fl) in No. lia.
      * replace (sp f p) with (sp 3 (shift p f 1)). 
        { apply sp3_interior. apply interior_pc. intros d Hd. rewrite pc_shift2 by lia. pose proof (Hp d Hd). destruct (Z.eqb_spec d f) as [->|N]; [|rewrite (mf_n_oth _ _ FB f d) in * by (rewrite ?fdim; lia); lia].
          pose proof (mf_n_own _ _ FB f ltac:(rewrite fdim; lia)) as No. rewrite (fflip f ltac:(lia) Fl) in No. lia. }
        rewrite sp_shift, E', VortCurl.shift_shift by lia. unfold turn. rewrite Fl. change (1 + - (1))%Z with 0%Z. apply VortCurl.shift_0.
    + change (- 0)%Z with 0%Z in E. rewrite VortCurl.shift_0 in E. rewrite <- E. unfold Rdiv. rewrite !Rinv_mult. ring.
  - intros d Hd. symmetry. now apply fn3.
  - intros d Hd Fl. rewrite pc_shift2 by lia. pose proof (Hp d Hd). destruct (Z.eqb_spec d f) as [->|N]; [|rewrite (mf_n_oth _ _ FB f d) in * by (rewrite ?fdim; lia); lia].
    pose proof (mf_n_own _ _ FB f ltac:(rewrite fdim; lia)) as No. rewrite (fflip f ltac:(lia) Fl) in No. lia.
Qed.
Let K := if (m_dim mA =? 3)%Z then len * len else len.
Lemma side f d p : (0 <= f < m_dim mA)%Z -> (0 <= d < m_dim mA)%Z -> f <> d -> interior (m_n mB 3) p -> wid mB f d (pc p d) = len * wid mA (ax f) (ax d) (pc (sp 3 p) (ax d)).
Proof.
  intros Hf Hd N Hp. pose proof dim23. rewrite interior_pc in Hp. pose proof (Hp d ltac:(lia)). pose proof (mf_n_oth _ _ FB f d ltac:(rewrite fdim; lia) ltac:(lia) N) as No.
  rewrite fwid by (auto; lia). rewrite sp_ax by lia. rewrite (rv_same f 3) by exact No. reflexivity.
Qed.
Lemma farea f p : (0 <= f < m_dim mA)%Z -> interior (m_n mB 3) p -> face_area mB false f p = K * face_area mA false (ax f) (sp 3 p).
Proof.
  intros Hf Hp. pose proof (axdim f Hf) as Hf'. unfold face_area, K. destruct dim23 as [E|E].
  - assert (W : forall g, (0 <= g < 2)%Z -> forall q, interior (m_n mB 3) q -> wid mB g 2 (pc q 2) = 1 /\ wid mA g 2 (pc (sp 3 q) 2) = 1).
    { intros g Hg q Hq. rewrite interior_pc in Hq. pose proof (Hq 2%Z ltac:(lia)) as Q. rewrite (proj1 (mf_flat _ _ FB 3 ltac:(lia) ltac:(rewrite fdim; exact E))) in Q. replace (pc q 2) with 0%Z by lia.
      assert (Q2 : pc (sp 3 q) 2 = 0%Z). { pose proof (sp3_interior q ltac:(rewrite interior_pc; exact Hq)) as I. rewrite interior_pc in I. pose proof (I 2%Z ltac:(lia)) as Q2. rewrite (proj1 (mf_flat _ _ FA 3 ltac:(lia) E)) in Q2. lia. }
      rewrite Q2. split; [apply (mf_flat _ _ FB g ltac:(rewrite ?fdim; lia) ltac:(rewrite fdim; exact E))|apply (mf_flat _ _ FA g ltac:(lia) E)]. }
    rewrite E. cbn [Z.eqb Pos.eqb]. rewrite E in Hf, Hf'. destruct (W f Hf p Hp) as [W1 _]. destruct (W (ax f) Hf' p Hp) as [_ W2].
    pose proof (axdim 0 ltac:(lia)). pose proof (axdim 1 ltac:(lia)). pose proof (ax_inj 0 1 ltac:(lia) ltac:(lia)). 
    assert (P1 : perp1 f = 2%Z) by (unfold perp1; destruct (Z.eqb_spec f 2); lia). assert (P2 : perp1 (ax f) = 2%Z) by (unfold perp1; destruct (Z.eqb_spec (ax f) 2); lia).
    assert (P0 : perp0 (ax f) = ax (perp0 f)) by (unfold perp0; assert (f = 0 \/ f = 1)%Z as [->| ->] by lia; cbn [Z.eqb]; destruct (Z.eqb_spec (ax 0) 0), (Z.eqb_spec (ax 1) 0); lia).
    assert (P3 : (0 <= perp0 f < 2)%Z /\ f <> perp0 f) by (unfold perp0; destruct (Z.eqb_spec f 0); lia).
    rewrite P1, P2, P0, W1, W2, (side f (perp0 f)) by (auto; lia). ring.
  - rewrite E. cbn [Z.eqb Pos.eqb]. rewrite E in Hf, Hf'.
    assert (P3 : (0 <= perp0 f < 3)%Z /\ f <> perp0 f /\ (0 <= perp1 f < 3)%Z /\ f <> perp1 f) by (unfold perp0, perp1; destruct (Z.eqb_spec f 0), (Z.eqb_spec f 2); lia).
    rewrite (side f (perp0 f)), (side f (perp1 f)) by (auto; lia).
    pose proof (ax3 0 ltac:(lia)). pose proof (ax3 1 ltac:(lia)). pose proof (ax3 2 ltac:(lia)). pose proof (ax_inj 0 1 ltac:(lia) ltac:(lia)). pose proof (ax_inj 0 2 ltac:(lia) ltac:(lia)). pose proof (ax_inj 1 2 ltac:(lia) ltac:(lia)).
    assert (P : (perp0 (ax f) = ax (perp0 f) /\ perp1 (ax f) = ax (perp1 f)) \/ (perp0 (ax f) = ax (perp1 f) /\ perp1 (ax f) = ax (perp0 f))).
    { unfold perp0, perp1. destruct (pt_cases f Hf) as [->|[->| ->]]; cbn [Z.eqb Pos.eqb];
      destruct (pt_cases (ax 0) ltac:(lia)) as [E0|[E0|E0]], (pt_cases (ax 1) ltac:(lia)) as [E1|[E1|E1]], (pt_cases (ax 2) ltac:(lia)) as [E2|[E2|E2]]; try lia; rewrite E0, E1, E2; cbn [Z.eqb Pos.eqb]; auto. }
    destruct P as [[-> ->]|[-> ->]]; ring.
Qed.
Lemma frame_flux u : repeats mA u -> (forall q, interior (m_n mA 3) q -> net_flux mA false u q = 0) ->
  forall p, interior (m_n mB 3) p -> net_flux mB false (map_velocity frame_map u) p = 0.
Proof.
  intros _ H p Hp. pose proof (H _ (sp3_interior p Hp)) as N. pose proof dim23. unfold net_flux in *. rewrite fdim.
  rewrite (zsum_ext _ (fun f => vel * K * (face_area mA false (ax f) (sp 3 p) * (u (ax f) (sp 3 p) - u (ax f) (shift (sp 3 p) (ax f) (-1)))))).
  - rewrite VortCurl.zsum_scal. rewrite (zsum_axes (fun e => face_area mA false e (sp 3 p) * (u e (sp 3 p) - u e (shift (sp 3 p) e (-1))))). rewrite N. ring.
  - intros f Hf. rewrite !at_map, farea, sp_shift by (auto; lia). pose proof (sp_cell f p Hf) as E. rewrite E. unfold fl, turn, sign. destruct (fr_flip F f); rewrite !VortCurl.shift_shift.
    + change (- (1) + - (-1))%Z with 0%Z. change (- (1))%Z with (-1)%Z. rewrite VortCurl.shift_0. ring.
    + change (- 0)%Z with 0%Z. change (0 + -1)%Z with (-1)%Z. rewrite VortCurl.shift_0. ring.
Qed.

(** Boundaries. *)
Lemma loc_facts loc : (0 <= loc < m_dim mA * 2)%Z -> (0 <= loc_dir loc < m_dim mA)%Z /\ (loc mod 2 = 0 \/ loc mod 2 = 1)%Z /\ (loc = 2 * loc_dir loc + loc mod 2)%Z.
Proof. intros H. pose proof (Z.div_mod loc 2 ltac:(lia)). pose proof (Z.mod_pos_bound loc 2 ltac:(lia)). unfold loc_dir. lia. Qed.
Lemma loc_of a b : (b = 0 \/ b = 1)%Z -> loc_dir (2 * a + b) = a /\ ((2 * a + b) mod 2 = b)%Z.
Proof. intros Hb. unfold loc_dir. split; symmetry; [apply (Z.div_unique_pos _ _ _ b)|apply (Z.mod_unique_pos _ _ a)]; lia. Qed.
Lemma frame_loc_facts loc : (0 <= loc < m_dim mA * 2)%Z -> (0 <= frame_loc F loc < m_dim mA * 2)%Z /\ loc_dir (frame_loc F loc) = ax (loc_dir loc) /\
  ((frame_loc F loc) mod 2 = if fr_flip F (loc_dir loc) then 1 - loc mod 2 else loc mod 2)%Z.
Proof.
  intros H. destruct (loc_facts loc H) as (Hd & Hm & _). pose proof (axdim _ Hd). unfold frame_loc. fold ax.
  destruct (loc_of (ax (loc_dir loc)) (if fr_flip F (loc_dir loc) then 1 - loc mod 2 else loc mod 2)%Z ltac:(destruct (fr_flip F (loc_dir loc)); lia)) as [E1 E2].
  split; [destruct (fr_flip F (loc_dir loc)); lia|auto].
Qed.
Lemma frame_layers f loc : (0 <= f < m_dim mA)%Z -> (0 <= loc < m_dim mA * 2)%Z ->
  ghost_layer (m_n mA (ax f)) (frame_loc F loc) = rv f (loc_dir loc) (ghost_layer (m_n mB f) loc) /\ inner_layer (m_n mA (ax f)) (frame_loc F loc) = rv f (loc_dir loc) (inner_layer (m_n mB f) loc).
Proof.
  intros Hf Hl. pose proof dim23. destruct (loc_facts loc Hl) as (Hd & Hm & _). destruct (frame_loc_facts loc Hl) as (_ & E1 & E2). unfold ghost_layer, inner_layer. rewrite E1, E2, <- fn by lia. unfold rv.
  destruct Hm as [->| ->]; destruct (fr_flip F (loc_dir loc)); cbn [Z.eqb Z.sub Z.add Z.opp Z.pos_sub Pos.eqb]; lia.
Qed.
Lemma frame_ghost f loc q : (0 <= f < m_dim mB)%Z -> (0 <= loc < m_dim mB * 2)%Z -> periodic_dir mB (loc_dir loc) = false -> is_ghost (m_n mB f) loc q ->
  let sg := fm_sg frame_map in let pi := fm_pi frame_map in let sp := fm_pt frame_map in
  (sg f = 0 /\ (tyB f loc = CONVECTIVE \/ vaB f loc = 0)) \/
  (tyB f loc = NEUMANN /\ vaB f loc = 0 /\ sp f q = sp f (inner_of (m_n mB f) loc q)) \/
  exists loc', (0 <= pi f < m_dim mA)%Z /\ (0 <= loc' < m_dim mA * 2)%Z /\ periodic_dir mA (loc_dir loc') = false /\ is_ghost (m_n mA (pi f)) loc' (sp f q) /\
    inner_of (m_n mA (pi f)) loc' (sp f q) = sp f (inner_of (m_n mB f) loc q) /\ tyB f loc = tyA (pi f) loc' /\ (loc / 2 =? f)%Z = (loc' / 2 =? pi f)%Z /\
    let gB := crd mB f (loc_dir loc) (pc q (loc_dir loc)) - crd mB f (loc_dir loc) (pc (inner_of (m_n mB f) loc q) (loc_dir loc)) in
    let gA := crd mA (pi f) (loc_dir loc') (pc (sp f q) (loc_dir loc')) - crd mA (pi f) (loc_dir loc') (pc (inner_of (m_n mA (pi f)) loc' (sp f q)) (loc_dir loc')) in
    match tyB f loc with
    | DIRICHLET => vaB f loc = sg f * vaA (pi f) loc'
    | NEUMANN => gB * vaB f loc = sg f * (gA * vaA (pi f) loc')
    | CONVECTIVE => p_dt PB * vaB f loc / gB = p_dt PA * vaA (pi f) loc' / gA
    | _ => True
    end.
Proof.
  rewrite fdim. intros Hf Hl Hp [Q1 Q2] sg pi sp0. right; right. exists (frame_loc F loc). unfold sg, pi, sp0. cbn [frame_map fm_sg fm_pi fm_pt]. fold (sp f q). fold (sp f (inner_of (m_n mB f) loc q)).
  pose proof dim23. destruct (loc_facts loc Hl) as (Hd & Hm & _). destruct (frame_loc_facts loc Hl) as (Hl' & E1 & E2). destruct (frame_layers f loc Hf Hl) as [L1 L2]. pose proof (axdim f Hf) as Hf'.
  set (d := loc_dir loc) in *.
  assert (EI : inner_of (m_n mA (ax f)) (frame_loc F loc) (sp f q) = sp f (inner_of (m_n mB f) loc q)).
  { unfold inner_of. fold d. rewrite E1, L2, sp_setc by lia. reflexivity. }
  split; [exact Hf'|]. split; [exact Hl'|]. split; [rewrite E1, <- fper by lia; exact Hp|]. split.
  { split; [rewrite E1, L1, sp_ax, Q1 by lia; reflexivity|]. change (interior (m_n mA (ax f)) (inner_of (m_n mA (ax f)) (frame_loc F loc) (sp f q))). rewrite EI. apply sp_interior; auto. }
  split; [exact EI|]. destruct (Hbc f loc ltac:(rewrite fdim; exact Hf) ltac:(rewrite fdim; exact Hl)) as [Et Ev]. fold ax in Et, Ev. split; [exact Et|]. 
  split; [change (loc / 2)%Z with d; change (frame_loc F loc / 2)%Z with (loc_dir (frame_loc F loc)); rewrite E1; symmetry; apply ax_eqb; lia|].
  rewrite EI. unfold inner_of. rewrite E1. fold d. rewrite !sp_ax by lia. rewrite Q1.
  assert (Ep : pc (setc q d (inner_layer (m_n mB f) loc)) d = inner_layer (m_n mB f) loc) by (rewrite pc_setc, Z.eqb_refl by lia; reflexivity). rewrite Ep.
  assert (G : crd mB f d (ghost_layer (m_n mB f) loc) - crd mB f d (inner_layer (m_n mB f) loc) =
     len * sign F d * (crd mA (ax f) (ax d) (rv f d (ghost_layer (m_n mB f) loc)) - crd mA (ax f) (ax d) (rv f d (inner_layer (m_n mB f) loc)))).
  { pose proof (fpos f d ltac:(lia) ltac:(lia)) as Np. unfold ghost_layer, inner_layer. fold d. destruct Hm as [->| ->]; cbn [Z.eqb Pos.eqb]; unfold rv, sign.
    - pose proof (fgap f d 0 Hf Hd ltac:(lia)) as G0. cbv zeta in G0. replace (0 - 1)%Z with (-1)%Z in G0 by lia.
      transitivity (- (crd mB f d 0 - crd mB f d (-1))); [ring|]. rewrite G0. destruct (fr_flip F d).
      + replace (m_n mB f d - 1 - -1)%Z with (m_n mB f d - 0)%Z by lia. replace (m_n mB f d - 1 - 0)%Z with (m_n mB f d - 0 - 1)%Z by lia. ring.
      + change (0 - 1)%Z with (-1)%Z. ring.
    - pose proof (fgap f d (m_n mB f d) Hf Hd ltac:(lia)) as G0. cbv zeta in G0. rewrite G0. destruct (fr_flip F d).
      + replace (m_n mB f d - m_n mB f d - 1)%Z with (m_n mB f d - 1 - m_n mB f d)%Z by lia. replace (m_n mB f d - 1 - (m_n mB f d - 1))%Z with (m_n mB f d - m_n mB f d)%Z by lia. ring.
      + ring. }
  cbv zeta. rewrite G. pose proof lenpos. pose proof velpos. pose proof (sign2 d) as S2. fold d len vel in Ev. destruct (tyB f loc); auto; rewrite Ev.
  - set (gA := crd mA _ _ _ - _). transitivity (vel * sign F f * (sign F d * sign F d) * (gA * vaA (ax f) (frame_loc F loc))); [field; lra|]. rewrite S2. ring.
  - replace (p_dt PB) with (len / vel * p_dt PA) by (symmetry; apply Hsc). set (gA := crd mA _ _ _ - _). unfold Rdiv. rewrite !Rinv_mult.
    assert (S3 : / sign F d = sign F d) by (unfold sign; destruct (fr_flip F d); [field|apply Rinv_1]). rewrite S3.
    transitivity (len * / len * (vel * / vel) * (sign F d * sign F d) * (p_dt PA * vaA (ax f) (frame_loc F loc) * / gA)); [ring|]. rewrite S2, !Rinv_r by lra. ring.
Qed.

(** Convection. *)
Let base f d q := shift (sp f q) (ax d) (- fl d).
Lemma pair_sum (g : pt -> R) b d : g (shift b (ax d) (fl d)) + g (shift (shift b (ax d) (fl d)) (ax d) (turn d 1)) = g b + g (shift b (ax d) 1).
Proof.
  unfold fl, turn. rewrite VortCurl.shift_shift. destruct (fr_flip F d); cbn [Z.add Z.opp Z.pos_sub Pos.pred_double]; rewrite ?VortCurl.shift_0; [apply Rplus_comm|reflexivity].
Qed.
Lemma base_at f d q : shift (base f d q) (ax d) (fl d) = sp f q.
Proof. unfold base. rewrite VortCurl.shift_shift. replace (- fl d + fl d)%Z with 0%Z by lia. apply VortCurl.shift_0. Qed.
(** Both velocities of a product, at the base point and one step further. *)
Lemma base_own w f d q : (0 <= d < 3)%Z -> w (ax f) (sp f q) + w (ax f) (sp f (shift q d 1)) = w (ax f) (base f d q) + w (ax f) (shift (base f d q) (ax d) 1).
Proof. intros Hd. rewrite sp_shift by auto. rewrite <- (base_at f d q). apply (pair_sum (w (ax f))). Qed.
Lemma base_oth w f d q : (0 <= f < m_dim mA)%Z -> (0 <= d < m_dim mA)%Z -> 
  w (ax d) (sp d q) + w (ax d) (sp d (shift q f 1)) = w (ax d) (base f d q) + w (ax d) (shift (base f d q) (ax f) 1).
Proof.
  intros Hf Hd. pose proof dim23. destruct (Z.eq_dec f d) as [->|N]; [apply base_own; lia|].
  rewrite sp_shift by lia. rewrite (sp_other f d q Hf Hd N). fold (base f d q). apply (pair_sum (w (ax d))).
Qed.
Lemma fmflux w f d q : (0 <= f < m_dim mA)%Z -> (0 <= d < m_dim mA)%Z ->
  momentum_flux (map_velocity frame_map w) f d q = vel * vel * sign F f * sign F d * momentum_flux w (ax f) (ax d) (base f d q).
Proof.
  intros Hf Hd. pose proof dim23. unfold momentum_flux. rewrite !at_map. rewrite <- !Rmult_plus_distr_l, (base_oth w f d q Hf Hd), (base_own w f d q) by lia. unfold Rdiv. ring.
Qed.
Lemma frame_convection w f p : (0 <= f < m_dim mB)%Z -> interior (m_n mB f) p ->
  convection_at mB (map_velocity frame_map w) f p = kap * (fm_sg frame_map f * convection_at mA w (fm_pi frame_map f) (fm_pt frame_map f p)).
Proof.
  rewrite fdim. intros Hf Hp. pose proof dim23. unfold convection_at. rewrite fdim. cbn [frame_map fm_sg fm_pi fm_pt]. fold (sp f p). rewrite interior_pc in Hp.
  rewrite (zsum_ext _ (fun d => vel * vel / len * sign F f * ((momentum_flux w (ax f) (ax d) (sp f p) - momentum_flux w (ax f) (ax d) (shift (sp f p) (ax d) (-1))) / wid mA (ax f) (ax d) (pc (sp f p) (ax d))))).
  - rewrite VortCurl.zsum_scal. rewrite (zsum_axes (fun e => (momentum_flux w (ax f) e (sp f p) - momentum_flux w (ax f) e (shift (sp f p) e (-1))) / wid mA (ax f) e (pc (sp f p) e))). unfold kap, Rdiv. ring.
  - intros d Hd. rewrite !fmflux, fwid by (auto; apply Hp; lia). rewrite sp_ax by lia. unfold base. rewrite sp_shift by lia. rewrite VortCurl.shift_shift. unfold fl, turn, sign, rv. destruct (fr_flip F d).
    + change (- (-1) + - (1))%Z with 0%Z. change (- (1))%Z with (-1)%Z. rewrite VortCurl.shift_0. unfold Rdiv. rewrite !Rinv_mult. ring.
    + change (- 0)%Z with 0%Z. change (-1 + 0)%Z with (-1)%Z. rewrite VortCurl.shift_0. unfold Rdiv. rewrite !Rinv_mult. ring.
Qed.
Definition two_dec : dec := default_dec (fun _ => 2%Z) (m_n mA).
Lemma frame_quiet w f p : (0 <= f < m_dim mA)%Z -> interior (m_n mB f) p -> quiet_walls mA two_dec w (ax f) (sp f p) -> quiet_walls mB DB (map_velocity frame_map w) f p.
Proof.
  intros Hf Hp H d. rewrite fdim. intros Hd N Hper. right. pose proof dim23. rewrite fper in Hper by lia.
  destruct (H (ax d) (axdim d Hd) ltac:(intros E; apply N; apply ax_inj; lia || exact E) Hper) as [[K1 _]|[K1 K2]]; [discriminate K1|].
  assert (S : forall x y, x = 0 -> y * x = 0) by (intros x y ->; ring).
  assert (Z2 : forall b, (w (ax d) b = 0 /\ w (ax d) (shift b (ax f) 1) = 0) -> w (ax d) (shift b (ax f) (fl f)) = 0 /\ w (ax d) (shift (shift b (ax f) (fl f)) (ax f) (turn f 1)) = 0).
  { intros b [B1 B2]. rewrite VortCurl.shift_shift. unfold fl, turn. destruct (fr_flip F f); cbn [Z.add Z.opp Z.pos_sub Pos.pred_double]; rewrite ?VortCurl.shift_0; auto. }
  assert (W : forall q, (w (ax d) (base f d q) = 0 /\ w (ax d) (shift (base f d q) (ax f) 1) = 0) -> map_velocity frame_map w d q = 0 /\ map_velocity frame_map w d (shift q f 1) = 0).
  { intros q B. rewrite !at_map, sp_shift by lia. rewrite (sp_other f d q Hf Hd ltac:(auto)). fold (base f d q). destruct (Z2 _ B). split; now apply S. }
  assert (B0 : base f d p = if fr_flip F d then shift (sp f p) (ax d) (-1) else sp f p).
  { unfold base, fl. destruct (fr_flip F d); [reflexivity|]. apply VortCurl.shift_0. }
  assert (B1 : base f d (shift p d (-1)) = if fr_flip F d then sp f p else shift (sp f p) (ax d) (-1)).
  { unfold base, fl. rewrite sp_shift, VortCurl.shift_shift by lia. unfold turn. destruct (fr_flip F d); [apply VortCurl.shift_0|reflexivity]. }
  rewrite sp_ax in K1, K2 by lia. rewrite <- fn in K2 by lia. unfold rv in K1, K2. pose proof (W p) as W0. pose proof (W (shift p d (-1))) as W1. rewrite B0 in W0. rewrite B1 in W1.
  rewrite !(at_map w f). rewrite !sp_shift by lia. unfold turn. rewrite <- !Rmult_plus_distr_l. destruct (fr_flip F d); cbn [Z.opp].
  - split; intros E.
    + destruct (K2 ltac:(lia)) as [B|B]; [left; now apply W1|right; now apply S].
    + destruct (K1 ltac:(lia)) as [B|B]; [left; now apply W0|right; now apply S].
  - split; intros E.
    + destruct (K1 ltac:(lia)) as [B|B]; [left; now apply W1|right; now apply S].
    + destruct (K2 ltac:(lia)) as [B|B]; [left; now apply W0|right; now apply S].
Qed.

(** Runs. *)
Variables (tA tB : R) (nA nB : Z) (UA qA UB qB : vec) (OA OB : nsops) (a0 b0 : nsstate) (vsA psA vsB psB : vec -> vec -> vec).
Let mvf k x y := mv frame_map mA mB DA DB k x y.
Lemma frame_mv x y : framed_velocity F mA DA mB DB x y <-> mvf 1 x y.
Proof. symmetry. unfold mvf. rewrite <- (mv_maps frame_map mA mB DA DB HsA HsB frame_pt). reflexivity. Qed.
Lemma frame_mp x y a : (forall idA idB p, nthZ (field_layout DB 3) idB = Some p -> nthZ (field_layout DA 3) idA = Some (frame_point F (m_n mB 3) p) -> y idB + a = vel * vel * x idA) <->
  mp frame_map mA mB DA DB x (fun i => y i + a).
Proof. rewrite <- (mp_maps frame_map mA mB DA DB HsA HsB sp3_interior). unfold maps_pressure. reflexivity. Qed.
Hypotheses (HmA : periodic_min mA 3) (HnA : no_normal_neumann mA tyA).
Hypotheses (Hbn : p_bn PA = 1%Z) (Hdt : 0 < p_dt PA) (Hc : 0 <= p_dimp PA * p_nu PA).
Hypotheses (HclA : p_refp PA = true -> impermeable mA tyA vaA) (HclB : p_refp PB = true -> impermeable mA tyA vaA).
Hypothesis Hwalls : impermeable mA tyA vaA \/ (whole_domain mA DA /\ whole_domain mB DB).
Hypothesis HIA : ns_init mA DA PA tyA vaA tA nA UA qA = Ok (OA, a0).
Hypothesis HIB : ns_init mB DB PB tyB vaB tB nB UB qB = Ok (OB, b0).
Hypothesis HU : framed_velocity F mA DA mB DB UA UB.
Hypothesis Hq : framed_pressure F mB DA DB qA qB.
Lemma frame_min : periodic_min mB 3.
Proof.
  intros f d. rewrite fdim. intros Hf Hd Hp. pose proof dim23. rewrite fper in Hp by lia. rewrite fn by lia. apply HmA; auto; now apply axdim.
Qed.
Lemma frame_neumann : no_normal_neumann mB tyB.
Proof.
  intros f. rewrite fdim. intros Hf. destruct (HnA (ax f) (axdim f Hf)) as [K1 K2].
  assert (G : forall b, (b = 0 \/ b = 1)%Z -> tyB f (2 * f + b)%Z <> NEUMANN).
  { intros b Hb. rewrite (proj1 (Hbc f (2 * f + b)%Z ltac:(rewrite fdim; lia) ltac:(rewrite fdim; lia))). fold ax. unfold frame_loc. destruct (loc_of f b Hb) as [-> ->]. fold ax.
    destruct Hb as [->| ->]; destruct (fr_flip F f); cbn [Z.sub Z.add Z.opp Z.pos_sub Pos.pred_double]; rewrite ?Z.add_0_r; auto. }
  split; [rewrite <- (Z.add_0_r (2 * f)); apply G; lia|apply G; lia].
Qed.
Lemma frame_impermeable : impermeable mA tyA vaA -> impermeable mB tyB vaB.
Proof.
  intros H f loc. rewrite fdim. intros Hf Hl E Hp. pose proof dim23. destruct (frame_loc_facts loc Hl) as (Hl' & E1 & _). change (loc / 2)%Z with (loc_dir loc) in E.
  destruct (H (ax f) (frame_loc F loc) (axdim f Hf) Hl' ltac:(unfold loc_dir in E1; rewrite E1; fold (loc_dir loc); now rewrite E) ltac:(rewrite <- fper by lia; exact Hp)) as [A1 A2].
  destruct (Hbc f loc ltac:(rewrite fdim; exact Hf) ltac:(rewrite fdim; exact Hl)) as [Et Ev]. fold ax in Et, Ev. rewrite Et, A1 in *. split; [reflexivity|]. rewrite Ev, A2. ring.
Qed.
Lemma frame_conv hA hB BA BB xA xB yA yB : boundary_after mA DA tyA vaA ([OpICs UA] ++ hA) BA -> boundary_after mB DB tyB vaB ([OpICs UB] ++ hB) BB ->
  Forall2 (mcall frame_map mA mB DA DB PA PB) hA hB -> mvf 1 xA xB -> current ([OpICs UB] ++ hB) xB -> convection mA DA BA xA = Ok yA -> convection mB DB BB xB = Ok yB -> mvf kap yA yB.
Proof.
  intros HA HB Hh Hx Cu EA EB. destruct (convection_inv _ _ _ _ _ EA) as (CA & EA'). destruct (convection_inv _ _ _ _ _ EB) as (CB & EB').
  destruct (extends_box_exists mA DA tyA vaA _ _ xA FA HbA HA) as (u & HX). pose proof (corner0_extends mA DA tyA vaA _ BA xA u FA HbA HA HX) as HXA.
  assert (Hh' : Forall2 (mcall frame_map mA mB DA DB PA PB) ([OpICs UA] ++ hA) ([OpICs UB] ++ hB)) by (apply Forall2_app; auto; repeat constructor; now apply frame_mv).
  pose proof (mapped_extends frame_map mA mB DA DB tyA tyB vaA vaB PA PB HsA HsB HbA HbB frame_pt frame_repeats frame_ghost _ _ BA BB xA xB _ HA HB Hh' Hx Cu HXA) as HXB.
  intros f p Hf Hp. destruct (frame_pt f p Hf Hp) as [Hf' Hp']. pose proof Hf as HfA. rewrite fdim in HfA.
  rewrite (conv_value mB DB tyB vaB _ _ BB xB _ yB CB _ f p HsB HbB (cs_new _ _ _ _) HB HXB EB' (proj2 (idx_spec mB DB f p FB Hf Hp))).
  - rewrite (conv_value mA DA tyA vaA _ _ BA xA _ yA CA _ _ _ HsA HbA (cs_new _ _ _ _) HA HXA EA' (proj2 (idx_spec mA DA _ _ FA Hf' Hp'))).
    + now apply frame_convection.
    + destruct Hwalls as [Hi|[W1 _]]; [|intros d Hd N Hper; left; now apply W1]. apply (quiet_impermeable mA DA DA tyA vaA ([OpICs UA] ++ hA) BA xA u); auto. exists UA. now left.
  - destruct Hwalls as [Hi|[_ W2]]; [|intros d Hd N Hper; left; now apply W2].
    apply frame_quiet; auto. apply (quiet_impermeable mA DA two_dec tyA vaA ([OpICs UA] ++ hA) BA xA u); auto. exists UA. now left.
Qed.
Lemma frame_run k sA sB : exact_run mA DA PA OA (convection mA DA) vsA psA a0 k -> exact_run mB DB PB OB (convection mB DB) vsB psB b0 k ->
  ns_steps mA DA PA OA (convection mA DA) vsA psA k a0 = Ok sA -> ns_steps mB DB PB OB (convection mB DB) vsB psB k b0 = Ok sB ->
  framed_velocity F mA DA mB DB (s_U sA) (s_U sB) /\ framed_pressure F mB DA DB (s_p sA) (s_p sB).
Proof.
  intros XA XB EA EB. destruct Hsc as (S1 & S2 & S3 & S4 & S5 & S6). fold len vel in S1, S2. pose proof lenpos. pose proof velpos.
  assert (Hq' : exists a, mp frame_map mA mB DA DB qA (fun i => qB i + a)) by (destruct Hq as (a & Ha); exists a; now apply frame_mp).
  assert (D : 0 < p_dt PB) by (rewrite S1; apply Rmult_lt_0_compat; [apply Rdiv_lt_0_compat; assumption|exact Hdt]).
  assert (C : 0 <= p_dimp PB * p_nu PB).
  { rewrite S4, S2. replace (p_dimp PA * (len * vel * p_nu PA)) with (len * vel * (p_dimp PA * p_nu PA)) by ring. apply Rmult_le_pos; [apply Rlt_le, Rmult_lt_0_compat; assumption|exact Hc]. }
  destruct (mrun frame_map mA mB DA DB tyA tyB vaA vaB PA PB kap HsA HsB HbA HbB frame_pt frame_repeats frame_lap frame_grad frame_flux frame_ghost
    tA tB nA nB UA qA UB qB OA OB a0 b0 (convection mA DA) (convection mB DB) vsA psA vsB psB HmA frame_min HnA frame_neumann Hbn ltac:(congruence) Hdt D C
    S4 S5 S6 ltac:(rewrite S1; unfold kap; field; lra) HclA ltac:(intros E; apply frame_impermeable; auto) HIA HIB ltac:(now apply frame_mv) Hq' frame_conv k sA sB XA XB EA EB) as (_ & RU & (a & Rp) & _).
  split; [now apply frame_mv|]. exists a. now apply frame_mp.
Qed.
End Frame.
