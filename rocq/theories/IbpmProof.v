From Coq Require Import String ZifyBool Permutation.
From Verif Require Import Prelude ZSum RSum TypesModel GridModel GridSpec GridProof MeshProof IndexModel IndexSpec IndexProof
  BoundaryModel BoundarySpec BoundaryProof OperatorModel OperatorSpec OperatorProof BStateProof LapProof DivProof GradProof AdjProof SymProof
  MatModel BnModel BnSpec BnProof NSModel NSSpec NSProof NSTotal DriverModel DriverProof BodyModel BodySpec BodyProof
  DeltaModel DeltaSpec DeltaSum IbpmModel IbpmSpec.
Local Open Scope R_scope.

(** * Layout of the nested matrices *)
Section Nest.
Variables (size : Z) (l0 l1 : Z -> Z).
Hypotheses (P0 : forall r, (0 <= r < size)%Z -> (0 <= l0 r)%Z) (P1 : forall r, (0 <= r < size)%Z -> (0 <= l1 r)%Z) (Hsz : (0 <= size)%Z).
Let Lay := nest_layout size l0 l1.

Lemma nest_In b k : In (b, k) Lay <-> (b = 0 /\ 0 <= k < isum l0 0 size)%Z \/ (b = 1 /\ 0 <= k < isum l1 0 size)%Z.
Proof.
  unfold Lay, nest_layout. rewrite in_flat_map. split.
  - intros (r & Hr & H). apply zrange_In in Hr. apply in_app_iff in H. destruct H as [H|H]; apply in_map_iff in H as (q & E & Hq); injection E as <- <-; apply zrange_In in Hq.
    + left. split; [reflexivity|]. pose proof (isum_nonneg l0 0 r ltac:(intros; apply P0; lia)). pose proof (isum_le l0 0 (r + 1) size P0 ltac:(lia)) as M. rewrite isum_snoc in M by lia. lia.
    + right. split; [reflexivity|]. pose proof (isum_nonneg l1 0 r ltac:(intros; apply P1; lia)). pose proof (isum_le l1 0 (r + 1) size P1 ltac:(lia)) as M. rewrite isum_snoc in M by lia. lia.
  - intros [[-> Hk]|[-> Hk]].
    + destruct (isum_locate l0 size k Hsz P0 Hk) as (r & Hr & Hb). exists r. rewrite zrange_In. split; [lia|]. apply in_app_iff. left. apply in_map_iff. exists k. rewrite zrange_In. rewrite isum_snoc in Hb by lia. split; [reflexivity|lia].
    + destruct (isum_locate l1 size k Hsz P1 Hk) as (r & Hr & Hb). exists r. rewrite zrange_In. split; [lia|]. apply in_app_iff. right. apply in_map_iff. exists k. rewrite zrange_In. rewrite isum_snoc in Hb by lia. split; [reflexivity|lia].
Qed.

Lemma nest_NoDup : NoDup Lay.
Proof.
  unfold Lay, nest_layout. apply NoDup_flat_map; [apply zrange_NoDup| |].
  - intros r _. apply NoDup_app2.
    + apply FinFun.Injective_map_NoDup; [intros x y E; congruence|apply zrange_NoDup].
    + apply FinFun.Injective_map_NoDup; [intros x y E; congruence|apply zrange_NoDup].
    + intros x Hx Hy. apply in_map_iff in Hx as (a & <- & _). apply in_map_iff in Hy as (b & E & _). congruence.
  - intros r r' [b k] Hr Hr' H H'. apply zrange_In in Hr, Hr'. apply in_app_iff in H, H'.
    assert (G : forall l, (forall r, (0 <= r < size)%Z -> (0 <= l r)%Z) -> (isum l 0 r <= k < isum l 0 r + l r)%Z -> (isum l 0 r' <= k < isum l 0 r' + l r')%Z -> r = r').
    { intros l Pl A B. destruct (Z.lt_trichotomy r r') as [L|[E|L]]; auto; exfalso.
      - pose proof (isum_le l 0 (r + 1) r' ltac:(intros; apply Pl; lia) ltac:(lia)) as M. rewrite isum_snoc in M by lia. lia.
      - pose proof (isum_le l 0 (r' + 1) r ltac:(intros; apply Pl; lia) ltac:(lia)) as M. rewrite isum_snoc in M by lia. lia. }
    destruct H as [H|H], H' as [H'|H']; apply in_map_iff in H as (q & E & Hq); apply in_map_iff in H' as (q' & E' & Hq'); injection E as <- <-; pose proof (f_equal fst E') as E1; pose proof (f_equal snd E') as E2; cbn [fst snd] in E1, E2; try lia;
      subst q'; apply zrange_In in Hq, Hq'; [now apply (G l0)|now apply (G l1)].
Qed.

Lemma nest_perm : Permutation Lay (map (fun k => (0%Z, k)) (zrange 0 (isum l0 0 size)) ++ map (fun k => (1%Z, k)) (zrange 0 (isum l1 0 size))).
Proof.
  apply NoDup_Permutation; [apply nest_NoDup| |].
  - apply NoDup_app2.
    + apply FinFun.Injective_map_NoDup; [intros x y E; congruence|apply zrange_NoDup].
    + apply FinFun.Injective_map_NoDup; [intros x y E; congruence|apply zrange_NoDup].
    + intros x Hx Hy. apply in_map_iff in Hx as (a & <- & _). apply in_map_iff in Hy as (b & E & _). congruence.
  - intros [b k]. rewrite nest_In, in_app_iff, !in_map_iff. split.
    + intros [[-> Hk]|[-> Hk]]; [left|right]; exists k; rewrite zrange_In; auto.
    + intros [(q & E & Hq)|(q & E & Hq)]; injection E as <- <-; apply zrange_In in Hq; auto.
Qed.

Lemma nest_len : lenZ Lay = (isum l0 0 size + isum l1 0 size)%Z.
Proof.
  pose proof (Permutation_length nest_perm) as E. unfold lenZ. rewrite E, app_length, !map_length.
  pose proof (zrange_lenZ 0 (isum l0 0 size)) as A. pose proof (zrange_lenZ 0 (isum l1 0 size)) as B. unfold lenZ in A, B.
  pose proof (isum_nonneg l0 0 size P0). pose proof (isum_nonneg l1 0 size P1). lia.
Qed.

(** Sum over the positions. *)
Lemma nest_sum (g : Z * Z -> R) (v : Z -> R) : (forall i u, nthZ Lay i = Some u -> v i = g u) ->
  zsum v 0 (lenZ Lay) = zsum (fun k => g (0%Z, k)) 0 (isum l0 0 size) + zsum (fun k => g (1%Z, k)) 0 (isum l1 0 size).
Proof.
  intros Hv. rewrite (sum_layout (fun _ u => g u) Lay g (fun _ _ _ => eq_refl) v Hv).
  rewrite (sumR_perm g _ _ nest_perm), sumR_app, !sumR_map. reflexivity.
Qed.

Lemma nest_at b k : In (b, k) Lay -> exists i, (0 <= i < lenZ Lay)%Z /\ nthZ Lay i = Some (b, k).
Proof. apply In_nthZ. Qed.

Lemma nest_head : (0 < size)%Z -> (0 < l0 0)%Z -> nthZ Lay 0 = Some (0, 0)%Z.
Proof.
  intros H H0. unfold Lay, nest_layout. rewrite (zrange_cons 0 size) by lia. cbn [flat_map]. rewrite isum_nil by lia. rewrite (zrange_cons 0 (0 + l0 0)) by lia. reflexivity.
Qed.
End Nest.

(** * Sizes *)
Lemma pressure_l_total m D : mfacts m D -> isum (pressure_l D) 0 (nranks D) = n_pressure m.
Proof.
  intros F. assert (Hd3 := mf_dec _ _ F 3%Z (or_intror eq_refl)).
  assert (L : lenZ (field_layout D 3) = n_pressure m).
  { apply (field_layout_len D (m_n m 3)); try (pose proof (sizes_pos m D 3 0 F (or_intror eq_refl) ltac:(lia));
    pose proof (sizes_pos m D 3 1 F (or_intror eq_refl) ltac:(lia)); pose proof (sizes_pos m D 3 2 F (or_intror eq_refl) ltac:(lia)); lia). exact Hd3. }
  rewrite <- L. unfold field_layout. rewrite flat_map_lenZ. apply isum_ext. intros r Hr. symmetry. apply (local_points_lenZ D (m_n m 3)); auto.
Qed.
Lemma pressure_l_nonneg m D r : mfacts m D -> (0 <= r < nranks D)%Z -> (0 <= pressure_l D r)%Z.
Proof.
  intros F Hr. assert (Hd3 := mf_dec _ _ F 3%Z (or_intror eq_refl)). unfold pressure_l.
  rewrite <- (local_points_lenZ D (m_n m 3)) by auto. apply lenZ_nonneg.
Qed.
Lemma forces_total (m : mesh) (D : dec) bodies : bodies_ok m D bodies ->
  isum (bp_nLclAllProcs (m_dim m) (map fst bodies)) 0 (nranks D) = n_forces m bodies.
Proof.
  intros [Hok _]. unfold n_forces. rewrite <- (body_layout_len (nranks D) (m_dim m) (map fst bodies) Hok).
  rewrite body_layout_eq, flat_map_lenZ. apply isum_ext. intros r Hr. symmetry. apply (body_rank_len (nranks D)); auto.
Qed.
Lemma forces_nonneg (m : mesh) (D : dec) bodies r : bodies_ok m D bodies -> (0 <= r < nranks D)%Z -> (0 <= bp_nLclAllProcs (m_dim m) (map fst bodies) r)%Z.
Proof. intros [Hok _] Hr. rewrite <- (body_rank_len (nranks D) (m_dim m) (map fst bodies) Hok r Hr). apply lenZ_nonneg. Qed.
Lemma nranks_pos (m : mesh) (D : dec) bodies : bodies_ok m D bodies -> (1 <= nranks D)%Z.
Proof. intros [(H & _) _]. exact H. Qed.

Lemma rank0_pressure m D : mesh_setup m D -> (0 < pressure_l D 0)%Z.
Proof.
  intros Hs. pose proof (setup_facts _ _ Hs) as F. destruct Hs as (mn & mx & per & w & np & Hg & Hm & Hper & Hnp & H2 & HD).
  unfold createDMDAs in HD. destruct (forallb _ _) eqn:Ef; [|discriminate]. injection HD as <-. cbn [forallb] in Ef. apply andb_prop in Ef. destruct Ef as [Ef _].
  rewrite forallb_forall in Ef. pose proof (mf_dim _ _ F) as Hdim.
  assert (G : forall d, (0 <= d < 3)%Z -> (1 <= dmda_l (m_n m 3 d) (np d) (rcoord (default_dec np (m_n m)) d 0))%Z).
  { intros d Hd. specialize (Hnp d Hd).
    assert (Hle : (np d <= m_n m 3 d)%Z).
    { destruct (Z_lt_dec d (m_dim m)); [specialize (Ef d ltac:(apply zrange_In; lia)); lia|].
      assert (d = 2%Z) as -> by lia. rewrite H2 by lia. pose proof (sizes_pos m _ 3 2 F (or_intror eq_refl) ltac:(lia)). lia. }
    unfold dmda_l. pose proof (Z.div_le_lower_bound (m_n m 3 d) (np d) 1 ltac:(lia) ltac:(lia)).
    destruct (_ >? _)%Z; lia. }
  unfold pressure_l, d_m. cbn [default_dec ds_l]. pose proof (G 0%Z ltac:(lia)). pose proof (G 1%Z ltac:(lia)). pose proof (G 2%Z ltac:(lia)). nia.
Qed.

(** * The coupled solver *)
Section Coupled.
Variables (m : mesh) (D : dec) (P : nspar) (types : Z -> Z -> bctype) (values : Z -> Z -> R) (name : string) (bodies : list (body * list (list R))).
Hypotheses (Hset : mesh_setup m D) (Hb : bc_fits m types) (Hbo : bodies_ok m D bodies).
Let F : mfacts m D := setup_facts _ _ Hset.
Let nv := n_velocity m.
Let np := n_pressure m.
Let nf := n_forces m bodies.
Let Lay := nest_layout (nranks D) (pressure_l D) (bp_nLclAllProcs (m_dim m) (map fst bodies)).

Lemma lay_In b k : In (b, k) Lay <-> (b = 0 /\ 0 <= k < np)%Z \/ (b = 1 /\ 0 <= k < nf)%Z.
Proof.
  unfold Lay. rewrite nest_In; [|intros; now apply (pressure_l_nonneg m D)|intros; now apply (forces_nonneg m D)|pose proof (nranks_pos _ _ _ Hbo); lia].
  rewrite (pressure_l_total m D F), (forces_total m D bodies Hbo). reflexivity.
Qed.
Lemma lay_len : lenZ Lay = (np + nf)%Z.
Proof.
  unfold Lay. rewrite nest_len; [|intros; now apply (pressure_l_nonneg m D)|intros; now apply (forces_nonneg m D)|pose proof (nranks_pos _ _ _ Hbo); lia].
  now rewrite (pressure_l_total m D F), (forces_total m D bodies Hbo).
Qed.
Lemma lay_sum (g : Z * Z -> R) (v : Z -> R) : (forall i u, nthZ Lay i = Some u -> v i = g u) ->
  zsum v 0 (np + nf) = zsum (fun k => g (0%Z, k)) 0 np + zsum (fun k => g (1%Z, k)) 0 nf.
Proof.
  intros Hv. rewrite <- lay_len. unfold Lay in *.
  rewrite (nest_sum (nranks D) (pressure_l D) (bp_nLclAllProcs (m_dim m) (map fst bodies)) ltac:(intros; now apply (pressure_l_nonneg m D)) ltac:(intros; now apply (forces_nonneg m D)) ltac:(pose proof (nranks_pos _ _ _ Hbo); lia) g v Hv).
  now rewrite (pressure_l_total m D F), (forces_total m D bodies Hbo).
Qed.
Lemma lay_at b k : In (b, k) Lay -> exists i, (0 <= i < np + nf)%Z /\ nthZ Lay i = Some (b, k).
Proof. intros H. apply In_nthZ in H. destruct H as (i & Hi & E). rewrite lay_len in Hi. eauto. Qed.
Lemma lay_head : nthZ Lay 0 = Some (0, 0)%Z.
Proof. apply nest_head; [pose proof (nranks_pos _ _ _ Hbo); lia|now apply (rank0_pressure m)]. Qed.

Lemma nest_row_mvec A0 A1 x i b k : nthZ Lay i = Some (b, k) -> mvec nv (nest_rows Lay A0 A1) x i = mvec nv (if (b =? 0)%Z then A0 else A1) x k.
Proof. intros E. unfold mvec, nest_rows. rewrite E. apply zsum_ext. intros l _. destruct (b =? 0)%Z; reflexivity. Qed.

Lemma ib_createOperators_inv B O : ib_createOperators m D B P name bodies = Ok O ->
  exists d g l E H BN, createDivergence m D B false = Ok d /\ createGradient m D false = Ok g /\ createLaplacian m D B = Ok l /\
    ib_operators m D B name bodies = Ok (E, H) /\
    createBnHead nv (entry (op_log l)) (p_dt P) (p_dimp P * p_nu P) (p_bn P) = Ok BN /\
    let G := nest_cols Lay (entry g) (mscale (-1) H) in let Dc := nest_rows Lay (entry (op_log d)) E in
    O = mkIB (mkOps d G l (mshift (mscale (- p_dimp P * p_nu P) (entry (op_log l))) (1 / p_dt P)) (mmul nv BN G)
               (if p_refp P then pin (mmul nv Dc (mmul nv BN G)) else mmul nv Dc (mmul nv BN G))) Dc Lay (np + nf).
Proof.
  unfold ib_createOperators. intros H0.
  apply bind_ok_inv in H0. destruct H0 as (d & Ed & H0). apply bind_ok_inv in H0. destruct H0 as (g & Eg & H0).
  apply bind_ok_inv in H0. destruct H0 as (l & El & H0). cbv zeta in H0. apply bind_ok_inv in H0. destruct H0 as ([E H] & EI & H0).
  apply bind_ok_inv in H0. destruct H0 as (BN & EB & H0). injection H0 as <-. exists d, g, l, E, H, BN. repeat split; auto.
Qed.

Lemma ib_init_inv t0 n0 U0 p0 O s0 : ib_init m D P types values name bodies t0 n0 U0 p0 = Ok (O, s0) ->
  exists B, boundary_after m D types values [OpICs U0] B /\ ib_createOperators m D B P name bodies = Ok O /\
    s0 = mkNS t0 n0 U0 (fun _ => 0) (fun _ => 0) (map (fun _ => (fun _ => 0) : vec) (p_cexp P)) (map (fun _ => (fun _ => 0) : vec) (p_dexp P)) B.
Proof.
  intros H. unfold ib_init in H. apply bind_ok_inv in H. destruct H as (bl & Ebl & H). apply bind_ok_inv in H. destruct H as (B & EB & H).
  apply bind_ok_inv in H. destruct H as (o & Eo & H). injection H as <- <-. exists B. split; [|auto].
  exact (bc_call_inv m D types values [] _ (OpICs U0) B F Hb (create_after m D types values bl F Hb Ebl) EB).
Qed.

Lemma ib_advance_inv O conv vs ps s s2 : ib_advance m D P O conv vs ps s = Ok s2 ->
  exists rhs1 s1 rhs2,
    rhs_velocity (ib_n O) m D P (ib_ns O) conv (begun P s) = Ok (rhs1, s1) /\
    ib_assembleRHSPoisson m D P O (vs (s_U s) rhs1) (s_bc s1) = Ok rhs2 /\
    bc_call m D (OpEqs (s_U s) (p_dt P)) (s_bc s) = Ok (s_bc s1) /\
    s_dP s2 = ps (s_dP s) rhs2 /\
    s_U s2 = vaxpy (vs (s_U s) rhs1) (-1) (mvec (ib_n O) (o_BNG (ib_ns O)) (ps (s_dP s) rhs2)) /\
    s_p s2 = vaxpy (s_p s) 1 (ps (s_dP s) rhs2) /\
    bc_call m D (OpVals (s_U s2)) (s_bc s1) = Ok (s_bc s2) /\
    s_t s2 = s_t s + p_dt P /\ s_ite s2 = (s_ite s + 1)%Z /\ s_conv s2 = s_conv s1 /\ s_diff s2 = s_diff s1.
Proof. exact (advance_with_inv (ib_n O) (ib_assembleRHSPoisson m D P O) m D P (ib_ns O) conv vs ps s s2). Qed.

Lemma ib_steps_boundary t0 n0 U0 p0 O s0 conv vs ps k s : ib_init m D P types values name bodies t0 n0 U0 p0 = Ok (O, s0) ->
  run_steps (ib_advance m D P O conv vs ps) k s0 = Ok s ->
  exists h1, boundary_after m D types values ([OpICs U0] ++ h1) (s_bc s).
Proof.
  intros HI. destruct (ib_init_inv _ _ _ _ _ _ HI) as (B & HB & _ & ->). revert s. induction k as [|k IH]; intros s H.
  - injection H as <-. exists []. exact HB.
  - cbn [run_steps] in H. apply bind_ok_inv in H. destruct H as (s' & Es & Ea). destruct (IH s' Es) as (h1 & Hh).
    destruct (ib_advance_inv _ _ _ _ _ _ Ea) as (rhs1 & s1 & rhs2 & _ & _ & B1 & _ & _ & _ & B2 & _).
    exists (h1 ++ [OpEqs (s_U s') (p_dt P)] ++ [OpVals (s_U s)]).
    apply (bc_call_inv m D types values _ _ _ _ F Hb Hh) in B1. apply (bc_call_inv m D types values _ _ _ _ F Hb B1) in B2.
    rewrite <- !app_assoc in B2. exact B2.
Qed.

Theorem coupled_step t0 n0 U0 p0 O s0 conv vs ps k s s2 rhs1 s1 b u : periodic_min m 2 ->
  ib_init m D P types values name bodies t0 n0 U0 p0 = Ok (O, s0) -> run_steps (ib_advance m D P O conv vs ps) k s0 = Ok s ->
  ib_advance m D P O conv vs ps s = Ok s2 ->
  rhs_velocity (ib_n O) m D P (ib_ns O) conv (begun P s) = Ok (rhs1, s1) ->
  ib_assembleRHSPoisson m D P O (vs (s_U s) rhs1) (s_bc s1) = Ok b ->
  solves (ib_n O) (o_DBNG (ib_ns O)) (ps (s_dP s) b) b ->
  (p_refp P = true -> no_normal_neumann m types /\
     exists c, correction_mult m (nranks D) (o_D (ib_ns O)) (s_bc s1) = Ok c /\
       total np (vaxpy c 1 (mvec nv (entry (op_log (o_D (ib_ns O)))) (vs (s_U s) rhs1))) = 0) ->
  extends m D (s_bc s2) (s_U s2) u ->
  (forall p, interior (m_n m 3) p -> net_flux m false u p = 0) /\
  exists B E H, boundary_after m D types values [OpICs U0] B /\ ib_operators m D B name bodies = Ok (E, H) /\
    forall row, (0 <= row < nf)%Z -> mvec nv E (s_U s2) row = 0.
Proof.
  intros Hmin HI Hk Ha E1 E2 Hsol Hpin Hext.
  destruct (ib_steps_boundary _ _ _ _ _ _ _ _ _ _ _ HI Hk) as (h1 & Hh).
  destruct (ib_init_inv _ _ _ _ _ _ HI) as (B0 & HB0 & EO & _).
  destruct (ib_createOperators_inv _ _ EO) as (d & g & l & E & H & BN & Ed & Eg & El & EI & EB & EOps). cbv zeta in EOps. subst O.
  destruct (ib_advance_inv _ _ _ _ _ _ Ha) as (rhs1' & s1' & b' & X1 & X2 & XB1 & XdP & XU & _ & XB2 & _).
  rewrite E1 in X1. injection X1 as <- <-. rewrite E2 in X2. injection X2 as <-.
  cbn [ib_ns ib_D ib_lay ib_n o_D o_G o_L o_A o_BNG o_DBNG] in *.
  pose proof (bc_call_inv m D types values _ _ _ _ F Hb Hh XB1) as HB1. pose proof (bc_call_inv m D types values _ _ _ _ F Hb HB1 XB2) as HB2.
  rewrite <- app_assoc in HB1. rewrite <- !app_assoc in HB2.
  assert (Hics : has_ics [OpICs U0]) by (exists U0; now left).
  destruct (divergence_lemma m D types values false [OpICs U0] (h1 ++ [OpEqs (s_U s) (p_dt P)]) (s_U s2) B0 (s_bc s1) (s_bc s2) u F Hb Hics Hmin HB0 HB1) as (op & c & Eop & Ec & Hdiv); auto.
  { rewrite <- !app_assoc. exact HB2. }
  rewrite Ed in Eop. injection Eop as <-.
  set (q := ps (s_dP s) b) in *. set (U1 := vs (s_U s) rhs1) in *. set (Dm := entry (op_log d)) in *.
  set (G := nest_cols Lay (entry g) (mscale (-1) H)) in *. set (Dc := nest_rows Lay Dm E) in *.
  set (A := mmul nv Dc (mmul nv BN G)) in *.
  set (rhs := fun i => match nthZ Lay i with Some (b, k) => if (b =? 0)%Z then mvec nv Dc U1 i + c k else mvec nv Dc U1 i | None => mvec nv Dc U1 i end).
  assert (Hfull : solves (np + nf) A q rhs).
  { unfold ib_assembleRHSPoisson in E2. cbn [ib_ns ib_D ib_lay o_D] in E2. fold nv in E2. rewrite Ec in E2. cbn [bind] in E2. injection E2 as <-. fold rhs in Hsol.
    destruct (p_refp P); [|exact Hsol]. destruct (Hpin eq_refl) as (Hn & c' & Ec' & Ht). rewrite Ec in Ec'. injection Ec' as <-.
    set (w := fun i => match nthZ Lay i with Some (b, _) => if (b =? 0)%Z then 1 else 0 | None => 0 end).
    apply (pin_weighted (np + nf) A rhs q w).
    - pose proof (proj1 (lay_In 0 0) (nthZ_In _ _ _ lay_head)). assert (0 <= nf)%Z. { unfold nf. rewrite <- (forces_total m D bodies Hbo). apply isum_nonneg. intros. now apply (forces_nonneg m D). } lia.
    - unfold w. rewrite lay_head. reflexivity.
    - intros j Hj. rewrite (lay_sum (fun u => if (fst u =? 0)%Z then mvec nv Dm (fun l => mmul nv BN G l j) (snd u) else 0)).
      + rewrite (zsum_ext _ (fun k => mvec nv Dm (fun l => mmul nv BN G l j) k)) by reflexivity.
        rewrite (zsum_ext (fun k => if (fst (1%Z, k) =? 0)%Z then _ else _) (fun _ => 0)) by reflexivity.
        unfold zsum at 2. rewrite sumR_zero by reflexivity. rewrite Rplus_0_r.
        unfold mvec, zsum. rewrite sumR_swap. apply sumR_zero. intros l0 Hl. apply zrange_In in Hl. rewrite sumR_scal_r.
        pose proof (div_column_sum m D types values [OpICs U0] l0 F Hb Hics Hmin Hn Hl) as Z0.
        rewrite (createDivergence_ok m D types values false [OpICs U0] B0 F Hb HB0) in Ed. injection Ed as <-. unfold zsum in Z0. unfold Dm. unfold np. rewrite Z0. lra.
      + intros i [b' k'] Ei. unfold w. rewrite Ei. cbn [fst snd]. destruct (Z.eqb_spec b' 0) as [->|]; [|lra].
        unfold A, mmul at 1, Dc, nest_rows. rewrite Ei. cbn [Z.eqb]. unfold mvec. lra.
    - rewrite (lay_sum (fun u => if (fst u =? 0)%Z then c (snd u) + 1 * mvec nv Dm U1 (snd u) else 0)).
      + rewrite (zsum_ext (fun k => if (fst (1%Z, k) =? 0)%Z then _ else _) (fun _ => 0)) by reflexivity.
        unfold zsum at 2. rewrite sumR_zero by reflexivity. rewrite Rplus_0_r. exact Ht.
      + intros i [b' k'] Ei. unfold w, rhs. rewrite Ei. cbn [fst snd]. destruct (Z.eqb_spec b' 0) as [->|]; [|lra].
        unfold Dc. rewrite (nest_row_mvec Dm E U1 i 0 k' Ei). cbn [Z.eqb]. lra.
    - exact Hsol. }
  assert (Key : forall i, (0 <= i < np + nf)%Z -> mvec nv Dc (s_U s2) i = mvec nv Dc U1 i - rhs i).
  { intros i Hi. rewrite XU, mvec_axpy. rewrite <- mvec_mmul. fold A. rewrite (Hfull i Hi). lra. }
  split.
  - intros p Hp. destruct (pidx_spec m D p F Hp) as [_ Np]. specialize (Hdiv _ _ Np). rewrite <- Hdiv.
    change (mvec nv Dm (s_U s2) (idx m D 3 p) + c (idx m D 3 p) = 0).
    destruct (lay_at 0 (idx m D 3 p)) as (i & Hi & Ei); [apply lay_In; left; split; [reflexivity|now apply pidx_range]|].
    pose proof (Key i Hi) as Ki. unfold rhs in Ki. rewrite Ei in Ki. unfold Dc in Ki. rewrite !(nest_row_mvec Dm E _ i 0 _ Ei) in Ki. cbn [Z.eqb] in Ki. lra.
  - exists B0, E, H. split; [exact HB0|]. split; [exact EI|]. intros row Hrow.
    destruct (lay_at 1 row) as (i & Hi & Ei); [apply lay_In; right; auto|].
    pose proof (Key i Hi) as Ki. unfold rhs in Ki. rewrite Ei in Ki. unfold Dc in Ki. rewrite !(nest_row_mvec Dm E _ i 1 _ Ei) in Ki. cbn [Z.eqb] in Ki. lra.
Qed.
End Coupled.
