(** Runs that start from a steady solution of the discrete equations. *)
From Coq Require Import Lia ZifyBool List Lra.
Import ListNotations.
From Verif Require Import Prelude ZSum RSum TypesModel GridModel GridSpec GridProof MeshProof
  IndexModel IndexSpec IndexProof BoundaryModel BoundarySpec BoundaryProof OperatorModel OperatorSpec OperatorProof BStateProof LapProof DivProof GradProof
  AdjProof SymProof MatModel BnModel NSModel NSSpec NSProof NSPin LinAlg NSProps UniqueProof UniqueProps OperatorProps AlgebraProps
  ConvModel ConvSpec ConvProof ConvValue ConvTotal ConvProps EnergySpec EnergyProof EnergyRun IbpmProps DecSpec DecConv SteadySpec.
Local Open Scope R_scope.

(** A boundary call made with the velocity u. *)
Definition call_of (m : mesh) (D : dec) (u : Z -> pt -> R) (o : bop) : Prop :=
  match o with OpICs v => holds m D u v | OpEqs v _ => holds m D u v | OpVals v => holds m D u v end.

Section Steady.
Variables (m : mesh) (D : dec) (types : Z -> Z -> bctype) (values : Z -> Z -> R) (u : Z -> pt -> R).
Hypotheses (Hset : mesh_setup m D) (Hb : bc_fits m types) (Hrep : repeats m u) (Hgh : steady_ghosts m types values u).
Let F : mfacts m D := setup_facts _ _ Hset.

Lemma ghost_kept r f loc q p0 hist : (0 <= f < m_dim m)%Z -> (0 <= loc < m_dim m * 2)%Z -> (0 <= r < nranks D)%Z -> types f loc <> PERIODIC ->
  In (st_of q, p0) (gl_points m D r f loc) -> Forall (call_of m D u) hist ->
  forall p, geom p = geom p0 -> let inv p := gi_value p = u f q /\ gi_a0 p * u f (inner_of (m_n m f) loc q) + gi_a1 p = u f q in
  inv p -> inv (fold_left (pstep (bsb m D types values r f loc)) hist p).
Proof.
  intros Hf Hl Hr Hne Hin Hh p Hg inv. revert p Hg. induction Hh as [|o hist Ho Hh IH]; intros p Hg Hp; [exact Hp|]. cbn [fold_left]. apply IH.
  { rewrite pstep_geom. exact Hg. }
  clear IH. pose proof (gl_points_info m D r f loc q p0 F Hf Hl Hr Hin) as (_ & _ & I1 & _ & _ & _ & I2 & I3 & _). cbv zeta in I1, I3.
  rewrite <- (geom_tid _ _ Hg) in I1. rewrite <- (geom_dL _ _ Hg) in I2, I3.
  assert (Hgq : is_ghost (m_n m f) loc q).
  { apply (proj1 (gl_points_In m D r f loc q F Hf Hl Hr)). apply in_map_iff. eexists. split; [|exact Hin]. reflexivity. }
  assert (Hp0 : periodic_dir m (loc_dir loc) = false).
  { destruct (periodic_dir m (loc_dir loc)) eqn:E; auto. exfalso. apply Hne. now apply (proj2 (Hb f loc Hf Hl)). }
  pose proof (Hgh f loc q Hf Hl Hp0 Hgq) as G. cbv zeta in G. set (t := inner_of (m_n m f) loc q) in *.
  assert (Eb : bsb m D types values r f loc = mkSB (types f loc) loc f (values f loc) (normal_of loc) (checkBoundaryProc (m_n m f) D r f loc) (gl_points m D r f loc)).
  { unfold bsb. destruct (types f loc); auto; contradiction. }
  rewrite Eb. unfold inv in *. destruct Hp as [V1 V2].
  destruct o as [v|v dt|v]; cbn [call_of] in Ho; pose proof (Ho _ _ _ I1) as Ev; cbn [pstep].
  - unfold setGhostICsKernel. cbn [sb_type sb_loc sb_field sb_value sb_normal]. rewrite Ev. destruct (types f loc); try contradiction.
    + split; assumption.
    + unfold loc_dir in G. destruct (loc / 2 =? f)%Z; cbn [set_value set_eq gi_value gi_a0 gi_a1]; split; lra.
    + cbn [set_value set_eq gi_value gi_a0 gi_a1].
      assert (E : normal_of loc * gi_dL p * values f loc = u f q - u f t).
      { rewrite <- G, I3. assert (N : normal_of loc <> 0) by (unfold normal_of; destruct (_ =? _)%Z; lra). field. split; lra. }
      rewrite E. split; lra.
    + unfold kernelConvective. cbn [sb_type sb_loc sb_field sb_value sb_normal]. rewrite G in *. destruct (loc / 2 =? f)%Z;
        unfold kernelConvectiveSameDir, kernelConvectiveDiffDir; cbn [set_value set_eq gi_value gi_a0 gi_a1 gi_dL]; unfold Rdiv; split; ring.
  - unfold updateEqsKernel. cbn [sb_type sb_loc sb_field sb_value sb_normal]. rewrite Ev. destruct (types f loc); try (split; assumption).
    unfold kernelConvective. cbn [sb_type sb_loc sb_field sb_value sb_normal]. destruct (loc / 2 =? f)%Z;
      unfold kernelConvectiveSameDir, kernelConvectiveDiffDir; cbn [set_value set_eq gi_value gi_a0 gi_a1 gi_dL]; rewrite V1, G; unfold Rdiv; (split; [reflexivity|ring]).
  - cbn [set_value gi_value gi_a0 gi_a1]. rewrite Ev. split; assumption.
Qed.
Lemma ics_establish r f loc q p0 v : (0 <= f < m_dim m)%Z -> (0 <= loc < m_dim m * 2)%Z -> (0 <= r < nranks D)%Z -> types f loc <> PERIODIC -> types f loc <> NOBC ->
  In (st_of q, p0) (gl_points m D r f loc) -> holds m D u v ->
  let p := pstep (bsb m D types values r f loc) p0 (OpICs v) in gi_value p = u f q /\ gi_a0 p * u f (inner_of (m_n m f) loc q) + gi_a1 p = u f q.
Proof.
  intros Hf Hl Hr Hne Hnb Hin Hv.
  pose proof (ghost_kept r f loc q p0 [OpICs v] Hf Hl Hr Hne Hin ltac:(constructor; [exact Hv|constructor])) as K. cbn [fold_left] in K.
  specialize (K (set_value (set_eq p0 0 (u f q)) (u f q)) eq_refl ltac:(cbn; split; lra)).
  assert (Eb : bsb m D types values r f loc = mkSB (types f loc) loc f (values f loc) (normal_of loc) (checkBoundaryProc (m_n m f) D r f loc) (gl_points m D r f loc)).
  { unfold bsb. destruct (types f loc); auto; contradiction. }
  revert K. rewrite Eb. cbn [pstep]. unfold setGhostICsKernel. cbn [sb_type sb_loc sb_field sb_value sb_normal].
  destruct (types f loc); try contradiction; auto.
  all: unfold kernelConvective; cbn [sb_loc sb_field]; destruct (loc / 2 =? f)%Z; auto.
Qed.
Lemma steady_extends U0 h1 B x : holds m D u U0 -> Forall (call_of m D u) h1 -> boundary_after m D types values ([OpICs U0] ++ h1) B -> holds m D u x -> extends_box m D B x u.
Proof.
  intros H0 Hh HB Hx. split; [split; [|split]|].
  - intros id f p Hid. symmetry. now apply Hx.
  - intros f q Hf Hq _ Hi. now apply Hrep.
  - intros f q v Hv. destruct (ghost_value_pure _ _ _ _ _ _ _ _ _ F Hb HB Hv) as (r & loc & p & Hr & Hf & Hl & Hne & Hp & ->).
    cbn [app fold_left].
    destruct (ghost_kept r f loc q p h1 Hf Hl Hr Hne Hp Hh (pstep (bsb m D types values r f loc) p (OpICs U0)) (pstep_geom _ _ _)) as [E _]; [|now rewrite E].
    apply ics_establish; auto. now apply Hb.
  - exact Hrep.
Qed.
End Steady.

Lemma calls_app m D u h o : Forall (call_of m D u) h -> call_of m D u o -> Forall (call_of m D u) (h ++ [o]).
Proof. intros H Ho. apply Forall_app. split; auto. Qed.

Lemma nthZ_inside {A} (l : list A) i : (0 <= i < lenZ l)%Z -> exists x, nthZ l i = Some x.
Proof. intros H. destruct (nthZ l i) as [x|] eqn:E; eauto. exfalso. apply nthZ_None in E. lia. Qed.
(** The explicit terms when every slot holds the same value. *)
Lemma weighted_const c (h : list vec) i a : (forall v, In v h -> v i = a) -> lenZ c = lenZ h -> weighted c h i = sumR (fun x => x) c * a.
Proof.
  intros Hh L. unfold weighted. rewrite <- L.
  transitivity (zsum (fun j => a * (match nthZ c j with Some x => x | None => 0 end)) 0 (lenZ c)).
  - apply zsum_ext. intros j Hj. destruct (nthZ_inside c j Hj) as (x & ->). destruct (nthZ_inside h j ltac:(lia)) as (v & E). rewrite E, (Hh v) by (eapply nthZ_In; eauto). ring.
  - unfold zsum. rewrite sumR_scal. rewrite Rmult_comm. f_equal.
    clear. induction c as [|x c IH] using rev_ind; [reflexivity|]. rewrite lenZ_app. change (lenZ [x]) with 1%Z. pose proof (lenZ_nonneg c).
    rewrite zrange_snoc by lia. replace (lenZ c + 1 - 1)%Z with (lenZ c) by lia. rewrite !sumR_app. cbn [sumR]. f_equal.
    + rewrite <- IH. apply sumR_ext. intros j Hj. apply zrange_In in Hj. now rewrite nthZ_snoc_lt by lia.
    + f_equal. rewrite nthZ_app_r by lia. replace (lenZ c - lenZ c)%Z with 0%Z by lia. reflexivity.
Qed.

Section Run.
Variables (m : mesh) (D : dec) (P : nspar) (types : Z -> Z -> bctype) (values : Z -> Z -> R) (u : Z -> pt -> R) (pr : pt -> R) (t0 : R) (n0 : Z) (U0 p0 : vec) (O : nsops) (s0 : nsstate).
Hypotheses (Hset : mesh_setup m D) (Hb : bc_fits m types) (Hmin : periodic_min m 3) (Hneu : no_normal_neumann m types).
Hypotheses (Hbn : p_bn P = 1%Z) (Hdt : 0 < p_dt P) (Hc : 0 <= p_dimp P * p_nu P) (Hsum : p_dimp P + sumR (fun x => x) (p_dexp P) = 1).
Hypothesis Hst : steady_flow m D (p_nu P) types values u pr.
Hypothesis Hone : (lenZ (p_dexp P) <= 1)%Z \/ (forall f p, (0 <= f < m_dim m)%Z -> interior (m_n m f) p -> laplacian_at m f u p = 0).
Hypotheses (HU0 : holds m D u U0) (Hp0 : pressure_values D p0 pr).
Hypothesis HI : ns_init m D P types values t0 n0 U0 p0 = Ok (O, s0).
Variables (vs ps : vec -> vec -> vec).
Hypotheses (Hv : exact_solver (n_velocity m) (o_A O) vs) (Hp : exact_solver (n_pressure m) (o_DBNG O) ps).
Let F : mfacts m D := setup_facts _ _ Hset.
Let nv := n_velocity m.
Let np := n_pressure m.

Definition at_steady (s : nsstate) : Prop :=
  (exists h1, boundary_after m D types values ([OpICs U0] ++ h1) (s_bc s) /\ Forall (call_of m D u) h1) /\
  holds m D u (s_U s) /\
  (exists a, (p_refp P = true -> a = 0) /\ forall i, (0 <= i < np)%Z -> s_p s i = p0 i + a) /\
  lenZ (s_conv s) = lenZ (p_cexp P) /\ lenZ (s_diff s) = lenZ (p_dexp P) /\
  (forall v, In v (s_conv s) -> forall i, (0 <= i < nv)%Z -> v i = 0) /\
  ((lenZ (p_dexp P) <= 1)%Z \/ forall v, In v (s_diff s) -> forall i, (0 <= i < nv)%Z -> v i = 0).

Lemma steady_init : at_steady s0.
Proof.
  destruct (ns_init_inv _ _ _ _ _ _ _ _ _ _ _ F Hb HI) as (B & HB & _ & ->). unfold at_steady. cbn [s_bc s_U s_p s_conv s_diff].
  split; [exists []; split; [exact HB|constructor]|]. split; [exact HU0|]. split; [exists 0; split; [auto|intros; ring]|].
  rewrite !lenZ_map. repeat split; auto.
  - intros v Hin. apply in_map_iff in Hin. destruct Hin as (x & <- & _). auto.
  - right. intros v Hin. apply in_map_iff in Hin. destruct Hin as (x & <- & _). auto.
Qed.

(** The Laplacian of the velocity u with the boundary in any reached state. *)
Lemma steady_lap h1 B x c : boundary_after m D types values ([OpICs U0] ++ h1) B -> Forall (call_of m D u) h1 -> holds m D u x ->
  correction_mult m (nranks D) (o_L O) B = Ok c ->
  forall id f p, nthZ (packed_layout (m_dim m) D) id = Some (f, p) -> mvec nv (entry (op_log (o_L O))) x id + c id = laplacian_at m f u p.
Proof.
  intros HB Hh Hx Ec id f p Hid. destruct Hst as (Hrep & Hgh & _).
  destruct (ns_init_inv _ _ _ _ _ _ _ _ _ _ _ F Hb HI) as (B0 & HB0 & EO & _).
  destruct (createOperators_inv _ _ _ _ _ EO) as (d & g & l & BN & Ed & Eg & El & EB & EOO). rewrite EOO in *. cbn [o_L] in *.
  pose proof (pure_after m D types values ([OpICs U0] ++ h1 ++ [OpVals x]) F Hb) as HB2.
  destruct (laplacian_is_extended_stencil m D types values [OpICs U0] h1 x B0 B _ u Hset Hb (ics_one U0) Hmin HB0 HB HB2) as (op & c' & E1 & E2 & V).
  { apply (steady_extends m D types values u Hset Hb Hrep Hgh U0 (h1 ++ [OpVals x])); auto. apply calls_app; auto. }
  rewrite El in E1. injection E1 as <-. rewrite Ec in E2. injection E2 as <-. exact (V id f p Hid).
Qed.
Lemma steady_div h1 B x c : boundary_after m D types values ([OpICs U0] ++ h1) B -> Forall (call_of m D u) h1 -> holds m D u x ->
  correction_mult m (nranks D) (o_D O) B = Ok c ->
  forall id, (0 <= id < np)%Z -> mvec nv (entry (op_log (o_D O))) x id + c id = 0.
Proof.
  intros HB Hh Hx Ec id Hid. destruct Hst as (Hrep & Hgh & _ & Hflux).
  destruct (ns_init_inv _ _ _ _ _ _ _ _ _ _ _ F Hb HI) as (B0 & HB0 & EO & _).
  destruct (createOperators_inv _ _ _ _ _ EO) as (d & g & l & BN & Ed & Eg & El & EB & EOO). rewrite EOO in *. cbn [o_D] in *.
  pose proof (pure_after m D types values ([OpICs U0] ++ h1 ++ [OpVals x]) F Hb) as HB2.
  destruct (divergence_is_net_flux m D types values false [OpICs U0] h1 x B0 B _ u Hset Hb (ics_one U0) (min_three_two m Hmin) HB0 HB HB2) as (op & c' & E1 & E2 & V).
  { apply (steady_extends m D types values u Hset Hb Hrep Hgh U0 (h1 ++ [OpVals x])); auto. apply calls_app; auto. }
  rewrite Ed in E1. injection E1 as <-. rewrite Ec in E2. injection E2 as <-.
  destruct (pressure_ids m D id F Hid) as (p & Np). change (mat_mult (op_log d) (n_velocity m) x id + c id = 0). rewrite (V id p Np). apply Hflux.
  apply (pressure_row m D id p F Np).
Qed.
(** The gradient does not see constants. *)
Lemma steady_grad s : (exists a : R, forall i, (0 <= i < np)%Z -> s_p s i = p0 i + a) ->
  forall id f p, nthZ (packed_layout (m_dim m) D) id = Some (f, p) -> mvec np (o_G O) (s_p s) id = p_nu P * laplacian_at m f u p.
Proof.
  intros (a & Ha) id f p Hid. destruct (velocity_row m D id f p F Hid) as (Hf & Hi & _).
  destruct Hst as (_ & _ & Hs & _). destruct (Hs f p Hf Hi) as (_ & _ & ->).
  destruct (ns_init_inv _ _ _ _ _ _ _ _ _ _ _ F Hb HI) as (B0 & HB0 & EO & _).
  destruct (createOperators_inv _ _ _ _ _ EO) as (d & g & l & BN & Ed & Eg & El & EB & EOO). rewrite EOO. cbn [o_G].
  destruct (gradient_is_face_difference m D false (s_p s) (fun p => pr p + a) Hset (min_three_two m Hmin)) as (g' & Eg' & V).
  { intros i q Hq. rewrite Ha, (Hp0 i q Hq); [reflexivity|]. pose proof (pressure_row m D i q F Hq) as (Hq1 & -> & _). now apply pidx_range. }
  rewrite Eg in Eg'. injection Eg' as <-. change (mat_mult g (n_pressure m) (s_p s) id = gradient_at m false pr f p). rewrite (V id f p Hid).
  unfold gradient_at. f_equal. ring.
Qed.
Lemma steady_step s s2 : at_steady s -> advance m D P O (convection m D) vs ps s = Ok s2 -> at_steady s2.
Proof.
  intros ((h1 & HB & Hh) & HU & Hpr & Lc & Ld & Sc & Sd) Ha. destruct Hst as (Hrep & Hgh & Hs & _).
  destruct (advance_inv _ _ _ _ _ _ _ _ _ Ha) as (rhs1 & s1 & rhs2 & X1 & X2 & XB1 & XdP & XU & Xp & XB2 & _ & _ & Xc & Xd).
  pose proof (bc_call_inv m D types values _ _ _ _ F Hb HB XB1) as HB1. rewrite <- app_assoc in HB1.
  assert (Hh1 : Forall (call_of m D u) (h1 ++ [OpEqs (s_U s) (p_dt P)])) by (apply calls_app; auto).
  destruct (rhsvel_slots _ _ _ _ _ _ _ _ _ X1) as [T1 T2]. cbn [s_conv s_diff s_bc s_U] in T1, T2.
  destruct (slots_update _ _ _ T1) as (Lc1 & Oc1 & Nc1). destruct (slots_update _ _ _ T2) as (Ld1 & Od1 & Nd1).
  (* convection *)
  assert (Sc1 : forall v, In v (s_conv s1) -> forall i, (0 <= i < nv)%Z -> v i = 0).
  { intros v Hin i Hi. apply In_nthZ in Hin. destruct Hin as (j & Hj & Ej). destruct (Z.eq_dec j 0) as [->|Hne].
    - destruct (Nc1 ltac:(lia)) as (c & Ec & Ec'). rewrite Ej in Ec'. injection Ec' as ->. apply bind_ok_inv in Ec. destruct Ec as (y & Ey & X). injection X as <-. unfold vscale.
      destruct (convection_inv _ _ _ _ _ Ey) as (C' & Ey'). destruct (velocity_ids m D i F Hi) as (f & p & Hid). destruct (velocity_row m D i f p F Hid) as (Hf & Hp' & _).
      destruct (Hs f p Hf Hp') as (Z0 & Q & _).
      rewrite (conv_value m D types values _ _ _ _ u _ _ i f p Hset Hb (cs_new _ _ _ _) HB (steady_extends m D types values u Hset Hb Hrep Hgh U0 h1 _ _ HU0 Hh HB HU) Ey' Hid Q), Z0. ring.
    - rewrite Oc1 in Ej by lia. apply nthZ_In in Ej. now apply (Sc v Ej). }
  (* diffusion *)
  assert (New : forall c, (do c <- correction_mult m (nranks D) (o_L O) (s_bc s); Ok (vscale (p_nu P) (vaxpy c 1 (mvec (n_velocity m) (entry (op_log (o_L O))) (s_U s))))) = Ok c ->
     forall id f p, nthZ (packed_layout (m_dim m) D) id = Some (f, p) -> c id = p_nu P * laplacian_at m f u p).
  { intros c Ec id f p Hid. apply bind_ok_inv in Ec. destruct Ec as (c0 & Ec & X). injection X as <-. unfold vscale, vaxpy.
    rewrite <- (steady_lap h1 (s_bc s) (s_U s) c0 HB Hh HU Ec id f p Hid). unfold nv. ring. }
  assert (Sd1 : forall v, In v (s_diff s1) -> forall id f p, nthZ (packed_layout (m_dim m) D) id = Some (f, p) -> v id = p_nu P * laplacian_at m f u p).
  { intros v Hin id f p Hid. apply In_nthZ in Hin. destruct Hin as (j & Hj & Ej). destruct (Z.eq_dec j 0) as [->|Hne].
    - destruct (Nd1 ltac:(lia)) as (c & Ec & Ec'). rewrite Ej in Ec'. injection Ec' as ->. now apply New.
    - destruct Hone as [H1|H1]; [lia|]. destruct (velocity_row m D id f p F Hid) as (Hf & Hp' & _). rewrite (H1 f p Hf Hp').
      destruct Sd as [Sd|Sd]; [lia|]. rewrite Od1 in Ej by lia. apply nthZ_In in Ej. rewrite (Sd v Ej id); [ring|]. eapply (velocity_id_range m D); eauto. }
  (* velocity *)
  destruct (rhs_value _ _ _ _ _ _ _ _ _ X1) as (c & Ec & V). cbn [s_U s_p] in V.
  destruct (ns_init_inv _ _ _ _ _ _ _ _ _ _ _ F Hb HI) as (B0 & HB0 & EO & _).
  destruct (createOperators_inv _ _ _ _ _ EO) as (d & g & l & BN & Ed & Eg & El & EB & EOO).
  assert (EA : o_A O = mshift (mscale (- p_dimp P * p_nu P) (entry (op_log (o_L O)))) (1 / p_dt P)) by (rewrite EOO; reflexivity).
  assert (SU : solves nv (o_A O) (s_U s) rhs1).
  { intros i Hi. destruct (velocity_ids m D i F Hi) as (f & p & Hid). rewrite EA, mvec_shift by auto. rewrite V.
    pose proof (steady_lap _ _ (s_U s) c HB1 Hh1 HU Ec i f p Hid) as EL. fold nv in EL.
    fold np. rewrite (steady_grad s ltac:(destruct Hpr as (a & _ & Ea); exists a; exact Ea) i f p Hid).
    rewrite (weighted_const (p_cexp P) (s_conv s1) i 0) by (auto; lia).
    rewrite (weighted_const (p_dexp P) (s_diff s1) i (p_nu P * laplacian_at m f u p)) by (eauto; lia).
    rewrite <- EL. replace (sumR (fun x => x) (p_dexp P)) with (1 - p_dimp P) by lra. unfold Rdiv. ring. }
  destruct (momentum_unique_ns m D P types values t0 n0 U0 p0 O s0 Hset Hb HI Hmin Hc Hdt rhs1) as (x & Hx & Uq).
  assert (U1 : forall i, (0 <= i < nv)%Z -> vs (s_U s) rhs1 i = s_U s i).
  { intros i Hi. rewrite (Uq (s_U s) SU i Hi). apply (Uq (vs (s_U s) rhs1)); auto. refine (Hv (s_U s) rhs1 _). exists (s_U s). exact SU. }
  assert (HU1 : holds m D u (vs (s_U s) rhs1)). { intros id f p Hid. rewrite U1 by (eapply (velocity_id_range m D); eauto). now apply HU. }
  (* pressure *)
  assert (R2 : forall i, (0 <= i < np)%Z -> rhs2 i = 0).
  { intros i Hi. unfold assembleRHSPoisson in X2. apply bind_ok_inv in X2. destruct X2 as (c2 & Ec2 & X2). injection X2 as <-.
    pose proof (steady_div _ _ _ c2 HB1 Hh1 HU1 Ec2 i Hi) as E0.
    assert (E1 : vaxpy c2 1 (mvec (n_velocity m) (entry (op_log (o_D O))) (vs (s_U s) rhs1)) i = 0) by (unfold vaxpy; unfold nv in E0; lra).
    destruct (p_refp P); [|exact E1]. cbv beta. destruct (i =? 0)%Z; [reflexivity|exact E1]. }
  assert (S0 : solves np (o_DBNG O) (fun _ => 0) rhs2). { intros i Hi. rewrite (R2 i Hi). unfold mvec, zsum. apply sumR_zero. intros; ring. }
  assert (SP : solves np (o_DBNG O) (ps (s_dP s) rhs2) rhs2). { refine (Hp (s_dP s) rhs2 _). eexists. exact S0. }
  assert (CP : exists a, (p_refp P = true -> a = 0) /\ forall i, (0 <= i < np)%Z -> ps (s_dP s) rhs2 i = a).
  { destruct (p_refp P) eqn:Er.
    - destruct (pinned_poisson_solvable m D P types values t0 n0 U0 p0 O s0 Hset Hb (min_three_two m Hmin) Hneu Hbn ltac:(lra) Er HI rhs2) as (y & _ & Uy).
      exists 0. split; auto. intros i Hi. rewrite (Uy _ SP i Hi). symmetry. exact (Uy _ S0 i Hi).
    - destruct (nullspace_poisson_solvable m D P types values t0 n0 U0 p0 O s0 Hset Hb (min_three_two m Hmin) Hneu Hbn ltac:(lra) Er HI rhs2) as (_ & Uy).
      destruct (proj1 (Uy _ S0 _) SP) as (a & Ea). exists a. split; [discriminate|]. intros i Hi. rewrite (Ea i Hi). ring. }
  destruct CP as (a & Ra & Ea).
  assert (G0 : forall i, (0 <= i < nv)%Z -> mvec np (o_G O) (ps (s_dP s) rhs2) i = 0).
  { rewrite EOO. cbn [o_G]. apply (proj2 (gradient_null_space_is_constants m D false g (ps (s_dP s) rhs2) Hset (min_three_two m Hmin) Eg)). intros c1 c2 H1 H2. now rewrite !Ea. }
  assert (U2 : forall i, (0 <= i < nv)%Z -> s_U s2 i = s_U s i).
  { intros i Hi. rewrite XU. unfold vaxpy. rewrite U1 by auto.
    assert (Z0 : mvec (n_pressure m) (o_BNG O) (ps (s_dP s) rhs2) i = 0); [|rewrite Z0; ring].
    replace (o_BNG O) with (mmul nv BN (o_G O)) by (rewrite EOO; reflexivity). rewrite mvec_mmul. fold np. unfold mvec at 1, zsum. apply sumR_zero. intros j Hj. apply zrange_In in Hj. rewrite G0 by exact Hj. ring. }
  pose proof (bc_call_inv m D types values _ _ _ _ F Hb HB1 XB2) as HB2. rewrite <- app_assoc in HB2.
  assert (HU2 : holds m D u (s_U s2)). { intros id f p Hid. rewrite U2 by (eapply (velocity_id_range m D); eauto). now apply HU. }
  split; [exists ((h1 ++ [OpEqs (s_U s) (p_dt P)]) ++ [OpVals (s_U s2)]); split; [exact HB2|apply calls_app; auto]|].
  split; [exact HU2|]. split.
  { destruct Hpr as (a0 & R0 & E0). exists (a0 + a). split; [intros Er; rewrite (R0 Er), (Ra Er); ring|]. intros i Hi. rewrite Xp. unfold vaxpy. rewrite (E0 i Hi), (Ea i Hi). ring. }
  rewrite Xc, Xd. split; [lia|]. split; [lia|]. split; [exact Sc1|].
  destruct Hone as [H1|H1]; [now left|right]. intros v Hin i Hi. destruct (velocity_ids m D i F Hi) as (f & p & Hid). rewrite (Sd1 v Hin i f p Hid).
  destruct (velocity_row m D i f p F Hid) as (Hf & Hp' & _). rewrite (H1 f p Hf Hp'). ring.
Qed.
Lemma steady_run k s : ns_steps m D P O (convection m D) vs ps k s0 = Ok s -> at_steady s.
Proof.
  revert s. induction k as [|k IH]; intros s H; [injection H as <-; exact steady_init|].
  cbn [ns_steps] in H. apply bind_ok_inv in H. destruct H as (s' & E & H). eapply steady_step; eauto.
Qed.
End Run.
