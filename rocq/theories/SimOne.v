(** One step of a run in terms of the fields. *)
From Coq Require Import Lia ZifyBool List Lra Permutation.
Import ListNotations.
From Verif Require Import Prelude ZSum RSum TypesModel GridModel GridSpec GridProof MeshProof
  IndexModel IndexSpec IndexProof BoundaryModel BoundarySpec BoundaryProof OperatorModel OperatorSpec OperatorProof BStateProof LapProof DivProof GradProof
  AdjProof SymProof MatModel BnModel NSModel NSSpec NSProof NSPin LinAlg NSProps UniqueProof UniqueProps OperatorProps AlgebraProps
  ConvModel ConvSpec ConvProof ConvValue ConvTotal ConvProps EnergySpec EnergyProof EnergyRun IbpmProps DecSpec DecProof DecConv SteadySpec SteadyProof.
Local Open Scope R_scope.

(** On a periodic direction the two boundary sums cancel. *)
Lemma periodic_outflow_dir m D nrm B x u f : mfacts m D -> extends m D B x u -> (0 <= f < m_dim m)%Z -> periodic_dir m f = true ->
    sumR (fun p => face_area m nrm f p * u f p) (filter (fun p => (pc p f =? m_n m 3 f - 1)%Z) (cells m))
  - sumR (fun p => face_area m nrm f p * u f (shift p f (-1))) (filter (fun p => (pc p f =? 0)%Z) (cells m)) = 0.
Proof.
  intros F (_ & X2 & _) Hf Hper. pose proof (mf_dim _ _ F) as Hdim.
  assert (Hn : forall e, (0 <= e < 3)%Z -> m_n m f e = m_n m 3 e).
  { intros e He. destruct (Z.eq_dec f e) as [<-|Hne]; [|now apply (mf_n_oth _ _ F)]. pose proof (mf_n_own _ _ F f Hf) as Ho. rewrite Hper in Ho. exact Ho. }
  assert (Hpos : forall e, (0 <= e < 3)%Z -> (1 <= m_n m f e)%Z) by (intros; eapply sizes_pos; eauto).
  apply Rminus_diag_eq. symmetry.
  rewrite (sumR_ext _ (fun p => (fun q => face_area m nrm f q * u f q) (setc p f (m_n m 3 f - 1)))).
  - rewrite <- (sumR_map (fun p => setc p f (m_n m 3 f - 1)) (fun q => face_area m nrm f q * u f q)). apply sumR_perm. apply NoDup_Permutation.
    + assert (G : forall l, NoDup l -> (forall p, In p l -> pc p f = 0%Z) -> NoDup (map (fun p => setc p f (m_n m 3 f - 1)) l)).
      { induction l as [|p t IH]; intros Hnd Hz; [constructor|]. cbn [map]. inversion Hnd as [|a b Ha Ht Ee]; subst. constructor.
        - intros Hi. apply in_map_iff in Hi. destruct Hi as (p' & E & Hi). apply Ha. replace p with p'; auto. apply pt_ext. intros e He.
          destruct (Z.eq_dec e f) as [->|Hne]; [rewrite !Hz by (auto; now (left + right)); reflexivity|].
          apply (f_equal (fun z => pc z e)) in E. rewrite !pc_setc in E by lia. replace (e =? f)%Z with false in E by lia. exact E.
        - apply IH; auto. intros; apply Hz; now right. }
      apply G; [apply NoDup_filter, box_NoDup|]. intros p Hp. apply filter_In in Hp. lia.
    + apply NoDup_filter, box_NoDup.
    + intros q. rewrite in_map_iff, filter_In, cells_In. split.
      * intros (p & <- & Hp). apply filter_In in Hp. rewrite cells_In in Hp. destruct Hp as [Hp H0]. rewrite interior_pc in *.
        pose proof (Hp f ltac:(lia)). split; [|rewrite pc_setc by lia; rewrite Z.eqb_refl; lia]. intros e He. rewrite pc_setc by lia. specialize (Hp e He).
        destruct (Z.eqb_spec e f) as [->|]; lia.
      * intros [Hq Hl]. exists (setc q f 0). rewrite interior_pc in Hq. pose proof (Hq f ltac:(lia)). split.
        -- apply pt_ext. intros e He. rewrite !pc_setc by lia. destruct (Z.eqb_spec e f) as [->|]; lia.
        -- apply filter_In. rewrite cells_In, interior_pc. split; [|rewrite pc_setc by lia; rewrite Z.eqb_refl; lia].
           intros e He. rewrite pc_setc by lia. specialize (Hq e He). destruct (Z.eqb_spec e f) as [->|]; lia.
  - intros p Hp. apply filter_In in Hp. rewrite cells_In in Hp. destruct Hp as [Hp H0]. rewrite interior_pc in Hp.
    pose proof (Hp f ltac:(lia)) as Hpf. specialize (Hpos f ltac:(lia)) as Hnf. pose proof (Hn f ltac:(lia)) as Hnn.
    set (q := shift p f (-1)).
    assert (Oq : forall e, (0 <= e < 3)%Z -> pc q e = if (e =? f)%Z then (-1)%Z else pc p e).
    { intros e He. unfold q. rewrite pc_shift by lia. destruct (Z.eqb_spec e f) as [->|]; lia. }
    assert (Im : image (m_n m f) q = setc p f (m_n m 3 f - 1)).
    { apply pt_ext. intros e He. rewrite pc_image by lia. rewrite Oq by auto. rewrite pc_setc by lia. destruct (Z.eqb_spec e f) as [->|Hne].
      - destruct (wrap_near (m_n m f f) (-1)) as [[? ?]|[[? ?]|[? ?]]]; lia.
      - unfold wrap. rewrite Hn by auto. apply Z.mod_small. now apply Hp. }
    cbv beta. rewrite <- Im. f_equal.
    + rewrite Im. unfold face_area. destruct nrm; [reflexivity|].
      destruct (pt_cases f ltac:(lia)) as [->|[->| ->]]; cbn [perp0 perp1 Z.eqb Pos.eqb]; rewrite !pc_setc by lia; reflexivity.
    + apply X2; auto.
      * apply in_frame_pc. intros e He. rewrite Oq by auto. destruct (Z.eqb_spec e f) as [->|]; [lia|]. rewrite Hn by auto. specialize (Hp e He). lia.
      * rewrite (n_outside_one _ q f ltac:(lia)); [rewrite Oq by lia; rewrite Z.eqb_refl; reflexivity|]. intros e He Hne. rewrite Oq by auto.
        replace (e =? f)%Z with false by lia. rewrite Hn by auto. now apply Hp.
      * apply has_image_pc. intros e He Ho. rewrite Oq in Ho by auto. destruct (Z.eqb_spec e f) as [->|Hne]; [exact Hper|].
        exfalso. specialize (Hp e He). rewrite Hn in Ho by auto. unfold outside in Ho. lia.
Qed.
(** Nothing leaves a domain whose boundaries are impermeable or periodic. *)
Lemma closed_outflow m D types values nrm h B x u : mfacts m D -> bc_fits m types -> impermeable m types values ->
  boundary_after m D types values h B -> has_ics h -> extends m D B x u -> domain_outflow m nrm u = 0.
Proof.
  intros F Hb Hi HB Hh HX. pose proof (mf_dim _ _ F) as Hdim. unfold domain_outflow, zsum. apply sumR_zero. intros f Hf. apply zrange_In in Hf.
  destruct (periodic_dir m f) eqn:Hp; [exact (periodic_outflow_dir m D nrm B x u f F HX Hf Hp)|].
  pose proof (mf_n_own _ _ F f Hf) as Ho. rewrite Hp in Ho.
  assert (Hpos : (1 <= m_n m f f)%Z) by (eapply sizes_pos; eauto; lia).
  assert (V0 : (2 * f / 2 = f)%Z) by (rewrite Z.mul_comm; apply Z_div_mult_full; lia).
  assert (V1 : ((2 * f + 1) / 2 = f)%Z) by (rewrite Z.add_comm, Z.mul_comm, Z_div_plus_full by lia; reflexivity).
  assert (M0 : ((2 * f) mod 2 = 0)%Z) by (rewrite Z.mul_comm, Z_mod_mult; reflexivity).
  assert (M1 : ((2 * f + 1) mod 2 = 1)%Z) by (rewrite Z.add_comm, Z.mul_comm, Z_mod_plus_full; reflexivity).
  rewrite !sumR_zero; [ring|..]; intros p Hin; apply filter_In in Hin; rewrite cells_In, interior_pc in Hin; destruct Hin as [Hp' Hl].
  - rewrite (wall_value m D types values h B x u f (2 * f) (shift p f (-1)) F Hb Hi HB Hh HX Hf); [ring|lia|auto|auto|].
    split; unfold ghost_layer, inner_layer, loc_dir; rewrite V0, M0; cbn [Z.eqb].
    + rewrite pc_shift by lia. rewrite Z.eqb_refl. lia.
    + rewrite interior_pc. intros e He. rewrite pc_setc, pc_shift by lia. specialize (Hp' e He). destruct (Z.eqb_spec e f) as [->|Ne]; [lia|]. rewrite (mf_n_oth _ _ F f e) by lia. exact Hp'.
  - rewrite (wall_value m D types values h B x u f (2 * f + 1) p F Hb Hi HB Hh HX Hf); [ring|lia|auto|auto|].
    split; unfold ghost_layer, inner_layer, loc_dir; rewrite V1, M1; cbn [Z.eqb].
    + lia.
    + rewrite interior_pc. intros e He. rewrite pc_setc by lia. specialize (Hp' e He). destruct (Z.eqb_spec e f) as [->|Ne]; [lia|]. rewrite (mf_n_oth _ _ F f e) by lia. exact Hp'.
Qed.

Section One.
Variables (m : mesh) (D : dec) (P : nspar) (types : Z -> Z -> bctype) (values : Z -> Z -> R) (t0 : R) (n0 : Z) (U0 p0 : vec) (O : nsops) (s0 : nsstate).
Hypotheses (Hset : mesh_setup m D) (Hb : bc_fits m types) (Hmin : periodic_min m 3) (Hneu : no_normal_neumann m types) (Hbn : p_bn P = 1%Z) (Hdt : 0 < p_dt P).
Hypothesis Hcl : p_refp P = true -> impermeable m types values.
Hypothesis HI : ns_init m D P types values t0 n0 U0 p0 = Ok (O, s0).
Let F : mfacts m D := setup_facts _ _ Hset.
Let nv := n_velocity m.
Let np := n_pressure m.
Let after h := boundary_after m D types values ([OpICs U0] ++ h).

Lemma lap_field h B B2 x c u : after h B -> after (h ++ [OpVals x]) B2 -> extends m D B2 x u -> correction_mult m (nranks D) (o_L O) B = Ok c ->
  forall f p, (0 <= f < m_dim m)%Z -> interior (m_n m f) p -> mvec nv (entry (op_log (o_L O))) x (idx m D f p) + c (idx m D f p) = laplacian_at m f u p.
Proof.
  intros HB HB2 Hu Ec f p Hf Hp. destruct (ns_init_inv _ _ _ _ _ _ _ _ _ _ _ F Hb HI) as (B0 & HB0 & EO & _).
  destruct (createOperators_inv _ _ _ _ _ EO) as (d & g & l & BN & Ed & Eg & El & EB & EOO). rewrite EOO in *. cbn [o_L] in *.
  destruct (laplacian_is_extended_stencil m D types values [OpICs U0] h x B0 B B2 u Hset Hb (ics_one U0) Hmin HB0 HB HB2 Hu) as (op & c' & E1 & E2 & V).
  rewrite El in E1. injection E1 as <-. rewrite Ec in E2. injection E2 as <-. exact (V _ f p (proj2 (idx_spec m D f p F Hf Hp))).
Qed.
Lemma div_field h B B2 x c u : after h B -> after (h ++ [OpVals x]) B2 -> extends m D B2 x u -> correction_mult m (nranks D) (o_D O) B = Ok c ->
  forall p, interior (m_n m 3) p -> mvec nv (entry (op_log (o_D O))) x (idx m D 3 p) + c (idx m D 3 p) = net_flux m false u p.
Proof.
  intros HB HB2 Hu Ec p Hp. destruct (ns_init_inv _ _ _ _ _ _ _ _ _ _ _ F Hb HI) as (B0 & HB0 & EO & _).
  destruct (createOperators_inv _ _ _ _ _ EO) as (d & g & l & BN & Ed & Eg & El & EB & EOO). rewrite EOO in *. cbn [o_D] in *.
  destruct (divergence_is_net_flux m D types values false [OpICs U0] h x B0 B B2 u Hset Hb (ics_one U0) (min_three_two m Hmin) HB0 HB HB2 Hu) as (op & c' & E1 & E2 & V).
  rewrite Ed in E1. injection E1 as <-. rewrite Ec in E2. injection E2 as <-. exact (V _ p (proj2 (pidx_spec m D p F Hp))).
Qed.
Lemma div_total h B x c : p_refp P = true -> after h B -> correction_mult m (nranks D) (o_D O) B = Ok c ->
  NSSpec.total np (vaxpy c 1 (mvec nv (entry (op_log (o_D O))) x)) = 0.
Proof.
  intros Hr HB Ec. pose proof (pure_after m D types values ([OpICs U0] ++ h ++ [OpVals x]) F Hb) as HB2.
  destruct (extends_box_exists m D types values _ _ x F Hb HB2) as (u & [HX _]).
  unfold NSSpec.total, np. rewrite (sum_cells m D (net_flux m false u)).
  - rewrite (total_flux m false u (mf_dim _ _ F)). refine (closed_outflow m D types values false _ _ x u F Hb (Hcl Hr) HB2 _ HX). exists U0. apply in_or_app. left. now left.
  - exact F.
  - intros id p Np. destruct (pressure_row m D id p F Np) as (Hp & -> & _). rewrite <- (div_field h B _ x c u HB HB2 HX Ec p Hp). unfold vaxpy. ring.
Qed.
Lemma grad_field y pr : (forall q, interior (m_n m 3) q -> pr q = y (idx m D 3 q)) ->
  forall f p, (0 <= f < m_dim m)%Z -> interior (m_n m f) p -> mvec np (o_G O) y (idx m D f p) = gradient_at m false pr f p.
Proof.
  intros Hy f p Hf Hp. destruct (ns_init_inv _ _ _ _ _ _ _ _ _ _ _ F Hb HI) as (B0 & HB0 & EO & _).
  destruct (createOperators_inv _ _ _ _ _ EO) as (d & g & l & BN & Ed & Eg & El & EB & EOO). rewrite EOO. cbn [o_G].
  destruct (gradient_is_face_difference m D false y pr Hset (min_three_two m Hmin)) as (g' & Eg' & V).
  { intros i q Hq. destruct (pressure_row m D i q F Hq) as (Hi & -> & _). now apply Hy. }
  rewrite Eg in Eg'. injection Eg' as <-. exact (V _ f p (proj2 (idx_spec m D f p F Hf Hp))).
Qed.
Lemma bng_grad y i : (0 <= i < nv)%Z -> mvec np (o_BNG O) y i = p_dt P * mvec np (o_G O) y i.
Proof.
  intros Hi. destruct (ns_init_inv _ _ _ _ _ _ _ _ _ _ _ F Hb HI) as (B0 & HB0 & EO & _).
  destruct (createOperators_inv _ _ _ _ _ EO) as (d & g & l & BN & Ed & Eg & El & EB & EOO). rewrite EOO. cbn [o_G o_BNG]. rewrite Hbn in EB.
  unfold mvec, zsum. rewrite <- sumR_scal. apply sumR_ext. intros j _. rewrite (bn_one _ _ _ _ _ (entry g) EB i j Hi). ring.
Qed.
(** A solution of the stored Poisson system solves it before pinning. *)
Lemma poisson_unpinned h B v b q : after h B -> assembleRHSPoisson m D P O v B = Ok b -> solves np (o_DBNG O) q b ->
  exists c, correction_mult m (nranks D) (o_D O) B = Ok c /\ solves np (unpinned m O) q (vaxpy c 1 (mvec nv (entry (op_log (o_D O))) v)).
Proof.
  intros HB Eb Hs. unfold assembleRHSPoisson in Eb. apply bind_ok_inv in Eb. destruct Eb as (c & Ec & Eb). injection Eb as <-. exists c. split; [exact Ec|].
  apply (solves_ext _ _ _ _ _ (stored_matrix m D P types values t0 n0 U0 p0 O s0 Hset Hb HI (min_three_two m Hmin) Hneu Hbn)) in Hs.
  pose proof (fun Er => div_total h B v c Er HB Ec) as Z0.
  destruct (p_refp P) eqn:Er; [|exact Hs].
  apply pin_equivalent; [exact (np_pos m D Hset)|..|exact Hs].
  - exact (unpinned_columns m D P types values t0 n0 U0 p0 O s0 Hset Hb HI (min_three_two m Hmin) Hneu).
  - exact (Z0 eq_refl).
Qed.
(** After the projection no net flux is left. *)
Lemma projected_flux h B B2 v b q u : after h B -> assembleRHSPoisson m D P O v B = Ok b -> solves np (o_DBNG O) q b ->
  let U := vaxpy v (-1) (mvec np (o_BNG O) q) in after (h ++ [OpVals U]) B2 -> extends m D B2 U u -> forall p, interior (m_n m 3) p -> net_flux m false u p = 0.
Proof.
  intros HB Eb Hs U HB2 Hu p Hp. destruct (poisson_unpinned h B v b q HB Eb Hs) as (c & Ec & Hq).
  rewrite <- (div_field h B B2 U c u HB HB2 Hu Ec p Hp). pose proof (Hq _ (pidx_range m D p F Hp)) as E. unfold unpinned in E. rewrite mvec_mmul in E. unfold vaxpy at 1 in E.
  unfold U. rewrite mvec_axpy. fold nv np in E |- *. lra.
Qed.
Lemma kernel_unpinned x y b : solves np (unpinned m O) x b -> solves np (unpinned m O) y b -> exists a, forall i, (0 <= i < np)%Z -> x i = y i + a.
Proof.
  intros Hx Hy. exists (x 0%Z - y 0%Z). intros i Hi. pose proof (np_pos m D Hset) as N.
  pose proof (unpinned_kernel m D P types values t0 n0 U0 p0 O s0 Hset Hb HI (min_three_two m Hmin) Hneu Hbn ltac:(lra) _ (solves_minus _ _ _ _ _ Hx Hy) i 0%Z Hi ltac:(lia)) as K.
  cbv beta in K. lra.
Qed.
End One.
