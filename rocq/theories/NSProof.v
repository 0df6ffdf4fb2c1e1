From Coq Require Import ZifyBool.
From Verif Require Import Prelude ZSum RSum TypesModel GridModel GridSpec GridProof MeshProof IndexModel IndexSpec IndexProof
  BoundaryModel BoundarySpec BoundaryProof OperatorModel OperatorSpec OperatorProof BStateProof LapProof DivProof GradProof AdjProof SymProof
  MatModel BnModel BnSpec BnProof NSModel NSSpec.
Local Open Scope R_scope.

(** * Boundary calls *)
Lemma mapM_Forall2 {A B} (f : A -> res B) l l' : mapM f l = Ok l' -> Forall2 (fun a b => f a = Ok b) l l'.
Proof.
  revert l'. induction l as [|a t IH]; intros l' H; cbn [mapM] in H.
  - injection H as <-. constructor.
  - apply bind_ok_inv in H. destruct H as (b & Hb & H). apply bind_ok_inv in H. destruct H as (t' & Ht & H). injection H as <-. constructor; auto.
Qed.
Lemma rank_fun_ok {A} (g : Z -> A) n d r : (0 <= r < n)%Z -> match nthZ (map g (zrange 0 n)) r with Some b => b | None => d end = g r.
Proof. intros Hr. rewrite nthZ_map, nthZ_zrange by lia. cbn [option_map]. now rewrite Z.add_0_l. Qed.

Lemma bc_call_after m D types values h B o : mfacts m D -> bc_fits m types -> boundary_after m D types values h B ->
  exists B', bc_call m D o B = Ok B' /\ boundary_after m D types values (h ++ [o]) B'.
Proof.
  intros F Hb HB. unfold bc_call. rewrite (mapM_ok _ (fun r => pure_state m D types values r (h ++ [o]))).
  - cbn [bind]. eexists. split; [reflexivity|]. intros r Hr. rewrite rank_fun_ok by auto. now apply (pure_after m D types values (h ++ [o]) F Hb r).
  - intros r Hr. apply zrange_In in Hr. rewrite (after_pure _ _ _ _ _ _ r F Hb HB Hr).
    pose proof (pure_run m D types values r h [o] F Hr) as E. unfold run_boundary in E. cbn [foldM] in E.
    destruct (run_boundary_op m D r (pure_state m D types values r h) o) as [b| |]; cbn [bind] in E; congruence.
Qed.
Lemma bc_call_inv m D types values h B o B' : mfacts m D -> bc_fits m types -> boundary_after m D types values h B ->
  bc_call m D o B = Ok B' -> boundary_after m D types values (h ++ [o]) B'.
Proof. intros F Hb HB E. destruct (bc_call_after m D types values h B o F Hb HB) as (B'' & E' & H). rewrite E in E'. injection E' as <-. exact H. Qed.

Lemma create_after m D types values bl : mfacts m D -> bc_fits m types ->
  mapM (fun r => createBoundary m D r types values) (zrange 0 (nranks D)) = Ok bl ->
  boundary_after m D types values [] (fun r => match nthZ bl r with Some b => b | None => [] end).
Proof.
  intros F Hb E. rewrite (mapM_ok _ (fun r => pure_state m D types values r [])) in E.
  - injection E as <-. intros r Hr. rewrite rank_fun_ok by auto. now apply (pure_after m D types values [] F Hb r).
  - intros r Hr. apply zrange_In in Hr. now apply pure_create.
Qed.

(** * Vectors and matrices *)
Lemma mvec_ext n A A' x x' i : (forall l, (0 <= l < n)%Z -> A i l = A' i l) -> (forall l, (0 <= l < n)%Z -> x l = x' l) -> mvec n A x i = mvec n A' x' i.
Proof. intros HA Hx. apply zsum_ext. intros l Hl. rewrite HA, Hx by auto. reflexivity. Qed.
Lemma mvec_axpy n A y a x i : mvec n A (vaxpy y a x) i = mvec n A y i + a * mvec n A x i.
Proof.
  unfold mvec, vaxpy, zsum. rewrite <- sumR_scal, <- sumR_plus. apply sumR_ext. intros; lra.
Qed.
Lemma mvec_mmul k n A B x i : mvec n (mmul k A B) x i = mvec k A (mvec n B x) i.
Proof.
  unfold mvec, mmul, zsum.
  rewrite (sumR_ext _ (fun l => sumR (fun c => A i c * B c l * x l) (zrange 0 k))) by (intros; now rewrite <- sumR_scal_r).
  rewrite sumR_swap. apply sumR_ext. intros c _. rewrite <- sumR_scal. apply sumR_ext. intros; lra.
Qed.

(** * Pinned systems *)
Lemma pin_weighted n A b x (w : Z -> R) : (1 <= n)%Z -> w 0%Z = 1 ->
  (forall j, (0 <= j < n)%Z -> zsum (fun i => w i * A i j) 0 n = 0) -> zsum (fun i => w i * b i) 0 n = 0 ->
  solves n (pin A) x (fun i => if (i =? 0)%Z then 0 else b i) -> solves n A x b.
Proof.
  intros Hn W0 Hc Hb Hs.
  assert (X0 : x 0%Z = 0).
  { pose proof (Hs 0%Z ltac:(lia)) as H. cbn in H. rewrite <- H. unfold mvec, zsum. rewrite (sumR_single _ _ 0%Z); [|apply zrange_NoDup|apply zrange_In; lia|].
    - unfold pin. cbn. lra.
    - intros l _ Hl. unfold pin. rewrite Z.eqb_refl. cbn [orb]. replace (0 =? l)%Z with false by lia. lra. }
  assert (Rows : forall i, (1 <= i < n)%Z -> mvec n A x i = b i).
  { intros i Hi. pose proof (Hs i ltac:(lia)) as H. cbv beta in H. replace (i =? 0)%Z with false in H by lia. rewrite <- H. apply zsum_ext. intros l Hl.
    unfold pin. replace (i =? 0)%Z with false by lia. cbn [orb]. destruct (Z.eqb_spec l 0) as [->|]; [rewrite X0; lra|reflexivity]. }
  intros i Hi. destruct (Z.eq_dec i 0) as [->|Hne]; [|apply Rows; lia].
  assert (S : zsum (fun i => w i * mvec n A x i) 0 n = 0).
  { unfold mvec, zsum. rewrite (sumR_ext _ (fun i => sumR (fun l => w i * A i l * x l) (zrange 0 n))).
    2: { intros i _. rewrite <- sumR_scal. apply sumR_ext. intros; lra. }
    rewrite sumR_swap. apply sumR_zero. intros l Hl. apply zrange_In in Hl. rewrite sumR_scal_r. fold (zsum (fun i => w i * A i l) 0 n). rewrite Hc by auto. lra. }
  rewrite zsum_cons in S, Hb by lia. rewrite (zsum_ext (fun i => w i * mvec n A x i) (fun i => w i * b i)) in S by (intros; rewrite Rows by lia; reflexivity).
  rewrite W0 in *. lra.
Qed.
Lemma pin_equivalent n A b x : (1 <= n)%Z ->
  (forall j, (0 <= j < n)%Z -> zsum (fun i => A i j) 0 n = 0) -> total n b = 0 ->
  solves n (pin A) x (fun i => if (i =? 0)%Z then 0 else b i) -> solves n A x b.
Proof.
  intros Hn Hc Hb. apply (pin_weighted n A b x (fun _ => 1) Hn eq_refl).
  - intros j Hj. rewrite <- (Hc j Hj). apply zsum_ext. intros; lra.
  - unfold total in Hb. rewrite <- Hb. apply zsum_ext. intros; lra.
Qed.

(** * Creation of the solver *)
Lemma createOperators_inv m D B P ops : createOperators m D B P = Ok ops ->
  exists d g l BN, createDivergence m D B false = Ok d /\ createGradient m D false = Ok g /\ createLaplacian m D B = Ok l /\
    createBnHead (n_velocity m) (entry (op_log l)) (p_dt P) (p_dimp P * p_nu P) (p_bn P) = Ok BN /\
    ops = mkOps d (entry g) l (mshift (mscale (- p_dimp P * p_nu P) (entry (op_log l))) (1 / p_dt P)) (mmul (n_velocity m) BN (entry g))
            (let A := mmul (n_velocity m) (entry (op_log d)) (mmul (n_velocity m) BN (entry g)) in if p_refp P then pin A else A).
Proof.
  unfold createOperators. intros H.
  apply bind_ok_inv in H. destruct H as (d & Ed & H). apply bind_ok_inv in H. destruct H as (g & Eg & H).
  apply bind_ok_inv in H. destruct H as (l & El & H). cbv zeta in H. apply bind_ok_inv in H. destruct H as (BN & EB & H). injection H as <-.
  exists d, g, l, BN. repeat split; auto.
Qed.

Lemma ns_init_inv m D P types values t0 n0 U0 p0 ops s0 : mfacts m D -> bc_fits m types ->
  ns_init m D P types values t0 n0 U0 p0 = Ok (ops, s0) ->
  exists B, boundary_after m D types values [OpICs U0] B /\ createOperators m D B P = Ok ops /\
    s0 = mkNS t0 n0 U0 p0 (fun _ => 0) (map (fun _ => (fun _ => 0) : vec) (p_cexp P)) (map (fun _ => (fun _ => 0) : vec) (p_dexp P)) B.
Proof.
  intros F Hb H. unfold ns_init in H. apply bind_ok_inv in H. destruct H as (bl & Ebl & H). apply bind_ok_inv in H. destruct H as (B & EB & H).
  apply bind_ok_inv in H. destruct H as (o & Eo & H). injection H as <- <-. exists B. split; [|auto].
  exact (bc_call_inv m D types values [] _ (OpICs U0) B F Hb (create_after m D types values bl F Hb Ebl) EB).
Qed.

(** * One step *)
Lemma rhsvel_inv n m D P ops conv s rhs s1 : rhs_velocity n m D P ops conv s = Ok (rhs, s1) ->
  bc_call m D (OpEqs (s_U s) (p_dt P)) (s_bc s) = Ok (s_bc s1) /\
  s_t s1 = s_t s /\ s_ite s1 = s_ite s /\ s_U s1 = s_U s /\ s_p s1 = s_p s /\ s_dP s1 = s_dP s.
Proof.
  unfold rhs_velocity. intros H.
  do 6 (apply bind_ok_inv in H; destruct H as (? & ? & H)). apply bind_ok_inv in H. destruct H as (B1 & EB & H).
  apply bind_ok_inv in H. destruct H as (c & Ec & H). injection H as <- <-. cbn [s_t s_ite s_U s_p s_dP s_bc]. repeat split; auto.
Qed.

Lemma advance_with_inv n rp m D P ops conv vs ps s s2 : advance_with n m D P ops (rhs_velocity n m D P ops conv) rp vs ps s = Ok s2 ->
  exists rhs1 s1 rhs2,
    rhs_velocity n m D P ops conv (mkNS (s_t s + p_dt P) (s_ite s + 1) (s_U s) (s_p s) (s_dP s) (s_conv s) (s_diff s) (s_bc s)) = Ok (rhs1, s1) /\
    rp (vs (s_U s) rhs1) (s_bc s1) = Ok rhs2 /\
    bc_call m D (OpEqs (s_U s) (p_dt P)) (s_bc s) = Ok (s_bc s1) /\
    s_dP s2 = ps (s_dP s) rhs2 /\
    s_U s2 = vaxpy (vs (s_U s) rhs1) (-1) (mvec n (o_BNG ops) (ps (s_dP s) rhs2)) /\
    s_p s2 = vaxpy (s_p s) 1 (ps (s_dP s) rhs2) /\
    bc_call m D (OpVals (s_U s2)) (s_bc s1) = Ok (s_bc s2) /\
    s_t s2 = s_t s + p_dt P /\ s_ite s2 = (s_ite s + 1)%Z /\ s_conv s2 = s_conv s1 /\ s_diff s2 = s_diff s1.
Proof.
  unfold advance_with. intros H. apply bind_ok_inv in H. destruct H as ([rhs1 s1] & E1 & H). cbv zeta in H.
  apply bind_ok_inv in H. destruct H as (rhs2 & E2 & H). apply bind_ok_inv in H. destruct H as (B2 & EB & H). injection H as <-.
  pose proof (rhsvel_inv _ _ _ _ _ _ _ _ _ E1) as (X1 & X2 & X3 & X4 & X5 & X6). cbn [s_t s_ite s_U s_p s_dP s_bc] in *.
  rewrite X4, X6 in *. exists rhs1, s1, rhs2. cbn [s_t s_ite s_U s_p s_dP s_bc s_conv s_diff]. rewrite X5 in *. repeat split; auto.
Qed.
Lemma advance_inv m D P ops conv vs ps s s2 : advance m D P ops conv vs ps s = Ok s2 ->
  exists rhs1 s1 rhs2,
    assembleRHSVelocity m D P ops conv (mkNS (s_t s + p_dt P) (s_ite s + 1) (s_U s) (s_p s) (s_dP s) (s_conv s) (s_diff s) (s_bc s)) = Ok (rhs1, s1) /\
    assembleRHSPoisson m D P ops (vs (s_U s) rhs1) (s_bc s1) = Ok rhs2 /\
    bc_call m D (OpEqs (s_U s) (p_dt P)) (s_bc s) = Ok (s_bc s1) /\
    s_dP s2 = ps (s_dP s) rhs2 /\
    s_U s2 = vaxpy (vs (s_U s) rhs1) (-1) (mvec (n_pressure m) (o_BNG ops) (ps (s_dP s) rhs2)) /\
    s_p s2 = vaxpy (s_p s) 1 (ps (s_dP s) rhs2) /\
    bc_call m D (OpVals (s_U s2)) (s_bc s1) = Ok (s_bc s2) /\
    s_t s2 = s_t s + p_dt P /\ s_ite s2 = (s_ite s + 1)%Z /\ s_conv s2 = s_conv s1 /\ s_diff s2 = s_diff s1.
Proof. exact (advance_with_inv (n_pressure m) (assembleRHSPoisson m D P ops) m D P ops conv vs ps s s2). Qed.

(** Every reachable state has a boundary object whose history starts with the
    initialisation. *)
Lemma steps_boundary m D P types values t0 n0 U0 p0 ops s0 conv vs ps k s : mfacts m D -> bc_fits m types ->
  ns_init m D P types values t0 n0 U0 p0 = Ok (ops, s0) -> ns_steps m D P ops conv vs ps k s0 = Ok s ->
  exists h1, boundary_after m D types values ([OpICs U0] ++ h1) (s_bc s).
Proof.
  intros F Hb HI. destruct (ns_init_inv _ _ _ _ _ _ _ _ _ _ _ F Hb HI) as (B & HB & _ & ->). revert s. induction k as [|k IH]; intros s H.
  - injection H as <-. exists []. exact HB.
  - cbn [ns_steps] in H. apply bind_ok_inv in H. destruct H as (s' & Es & Ea). destruct (IH s' Es) as (h1 & Hh).
    destruct (advance_inv _ _ _ _ _ _ _ _ _ Ea) as (rhs1 & s1 & rhs2 & _ & _ & B1 & _ & _ & _ & B2 & _).
    exists (h1 ++ [OpEqs (s_U s') (p_dt P)] ++ [OpVals (s_U s)]).
    apply (bc_call_inv m D types values _ _ _ _ F Hb Hh) in B1. apply (bc_call_inv m D types values _ _ _ _ F Hb B1) in B2.
    rewrite <- !app_assoc in B2. exact B2.
Qed.

Lemma div_column_sum m D types values h0 j : mfacts m D -> bc_fits m types -> has_ics h0 -> periodic_min m 2 -> no_normal_neumann m types ->
  (0 <= j < n_velocity m)%Z -> zsum (fun i => entry (op_log (op_of m D types values (div_rows m D false) h0)) i j) 0 (n_pressure m) = 0.
Proof.
  intros F Hb Hi Hmin Hneu Hj. destruct (velocity_ids m D j F Hj) as (f & q & E). destruct (velocity_row m D j f q F E) as (Hf & Hq & -> & _).
  destruct (Hneu f Hf) as [T0 T1]. destruct (next_ok m D f q F Hf Hq) as (Nx & _).
  pose proof (vcell m D f q F Hf Hq) as Hc.
  rewrite (sum_cells m D (fun p => face_area m false f p * (indicator (pt_eqb p q) - indicator (pt_eqb p (nextc m f q))))); auto.
  2: { intros id p Hid. destruct (pressure_row m D id p F Hid) as (Hp & -> & _). now apply div_entry. }
  assert (S : forall c, In c (cells m) -> sumR (fun p => face_area m false f p * indicator (pt_eqb p c)) (cells m) = face_area m false f c).
  { intros c Hin. rewrite (sumR_single _ _ c); [|apply box_NoDup|exact Hin|].
    - rewrite (proj2 (pt_eqb_spec c c) eq_refl). cbn. lra.
    - intros p _ Hne. destruct (pt_eqb p c) eqn:E1; [apply pt_eqb_spec in E1; contradiction|]. cbn. lra. }
  rewrite (sumR_ext _ (fun p => face_area m false f p * indicator (pt_eqb p q) - face_area m false f p * indicator (pt_eqb p (nextc m f q)))) by (intros; lra).
  rewrite sumR_minus, !S; [|now apply cells_In|now apply cells_In]. rewrite (face_area_next m D) by auto. lra.
Qed.

(** The Poisson matrix before pinning. *)
Definition poisson_matrix (m : mesh) (ops : nsops) : mat := mmul (n_velocity m) (entry (op_log (o_D ops))) (o_BNG ops).

Theorem step_divergence m D P types values t0 n0 U0 p0 ops s0 conv vs ps k s s2 rhs1 s1 b u :
  mesh_setup m D -> bc_fits m types -> periodic_min m 2 ->
  ns_init m D P types values t0 n0 U0 p0 = Ok (ops, s0) -> ns_steps m D P ops conv vs ps k s0 = Ok s ->
  advance m D P ops conv vs ps s = Ok s2 ->
  assembleRHSVelocity m D P ops conv (mkNS (s_t s + p_dt P) (s_ite s + 1) (s_U s) (s_p s) (s_dP s) (s_conv s) (s_diff s) (s_bc s)) = Ok (rhs1, s1) ->
  assembleRHSPoisson m D P ops (vs (s_U s) rhs1) (s_bc s1) = Ok b ->
  solves (n_pressure m) (o_DBNG ops) (ps (s_dP s) b) b ->
  (p_refp P = true -> no_normal_neumann m types /\
     exists c, correction_mult m (nranks D) (o_D ops) (s_bc s1) = Ok c /\
       total (n_pressure m) (vaxpy c 1 (mvec (n_velocity m) (entry (op_log (o_D ops))) (vs (s_U s) rhs1))) = 0) ->
  extends m D (s_bc s2) (s_U s2) u ->
  forall p, interior (m_n m 3) p -> net_flux m false u p = 0.
Proof.
  intros Hset Hb Hmin HI Hk Ha E1 E2 Hsol Hpin Hext p Hp. pose proof (setup_facts _ _ Hset) as F.
  destruct (steps_boundary _ _ _ _ _ _ _ _ _ _ _ _ _ _ _ _ F Hb HI Hk) as (h1 & Hh).
  destruct (ns_init_inv _ _ _ _ _ _ _ _ _ _ _ F Hb HI) as (B0 & HB0 & EO & _).
  destruct (createOperators_inv _ _ _ _ _ EO) as (d & g & l & BN & Ed & Eg & El & EB & ->).
  destruct (advance_inv _ _ _ _ _ _ _ _ _ Ha) as (rhs1' & s1' & b' & X1 & X2 & XB1 & XdP & XU & _ & XB2 & _).
  rewrite E1 in X1. injection X1 as <- <-. rewrite E2 in X2. injection X2 as <-.
  cbn [o_D o_G o_L o_A o_BNG o_DBNG] in *.
  pose proof (bc_call_inv m D types values _ _ _ _ F Hb Hh XB1) as HB1. pose proof (bc_call_inv m D types values _ _ _ _ F Hb HB1 XB2) as HB2.
  rewrite <- app_assoc in HB1. rewrite <- !app_assoc in HB2.
  assert (Hics : has_ics [OpICs U0]) by (exists U0; now left).
  destruct (divergence_lemma m D types values false [OpICs U0] (h1 ++ [OpEqs (s_U s) (p_dt P)]) (s_U s2) B0 (s_bc s1) (s_bc s2) u F Hb Hics Hmin HB0 HB1) as (op & c & Eop & Ec & Hdiv); auto.
  { rewrite <- !app_assoc. exact HB2. }
  rewrite Ed in Eop. injection Eop as <-.
  set (dP := ps (s_dP s) b) in *. set (U1 := vs (s_U s) rhs1) in *. set (Dm := entry (op_log d)) in *.
  set (A := mmul (n_velocity m) Dm (mmul (n_velocity m) BN (entry g))) in *.
  set (rhs := vaxpy c 1 (mvec (n_velocity m) Dm U1)).
  assert (Hfull : solves (n_pressure m) A dP rhs).
  { unfold assembleRHSPoisson in E2. cbn [o_D] in E2. rewrite Ec in E2. cbn [bind] in E2. injection E2 as <-. fold Dm rhs in Hsol.
    destruct (p_refp P); [|exact Hsol]. destruct (Hpin eq_refl) as (Hn & c' & Ec' & Ht). rewrite Ec in Ec'. injection Ec' as <-. fold rhs in Ht.
    apply pin_equivalent; auto.
    - pose proof (sizes_pos m D 3 0 F (or_intror eq_refl) ltac:(lia)). pose proof (sizes_pos m D 3 1 F (or_intror eq_refl) ltac:(lia)).
      pose proof (sizes_pos m D 3 2 F (or_intror eq_refl) ltac:(lia)). unfold n_pressure, npoints. nia.
    - intros j Hj. unfold A, mmul at 1, zsum. rewrite sumR_swap. apply sumR_zero. intros q Hq. apply zrange_In in Hq. rewrite sumR_scal_r.
      pose proof (div_column_sum m D types values [OpICs U0] q F Hb Hics Hmin Hn Hq) as Z0.
      rewrite (createDivergence_ok m D types values false [OpICs U0] B0 F Hb HB0) in Ed. injection Ed as <-. unfold zsum in Z0. unfold Dm. rewrite Z0. lra. }
  destruct (pidx_spec m D p F Hp) as [_ Np]. specialize (Hdiv _ _ Np). rewrite <- Hdiv.
  change (mvec (n_velocity m) Dm (s_U s2) (idx m D 3 p) + c (idx m D 3 p) = 0).
  pose proof (nthZ_Some_range _ _ _ Np) as Hr.
  rewrite XU. rewrite mvec_axpy. rewrite <- mvec_mmul. fold A.
  assert (Hi : (0 <= idx m D 3 p < n_pressure m)%Z) by (apply pidx_range; auto).
  rewrite (Hfull _ Hi). unfold rhs, vaxpy. lra.
Qed.

(** * Rotation of the history *)
Lemma rd_mid {A} (l1 l2 : list A) x : rd (l1 ++ x :: l2) (lenZ l1) = Ok x.
Proof. apply rd_Ok. rewrite nthZ_app_r by lia. replace (lenZ l1 - lenZ l1)%Z with 0%Z by lia. reflexivity. Qed.
Lemma upd_mid {A} (l1 l2 : list A) x y : upd_nat (l1 ++ x :: l2) (length l1) y = l1 ++ y :: l2.
Proof. induction l1 as [|a t IH]; [reflexivity|]. cbn [app length upd_nat]. now rewrite IH. Qed.
Lemma wr_mid {A} (l1 l2 : list A) x y : wr (l1 ++ x :: l2) (lenZ l1) y = Ok (l1 ++ y :: l2).
Proof.
  unfold wr. pose proof (lenZ_nonneg l1). rewrite lenZ_app, lenZ_cons. pose proof (lenZ_nonneg l2).
  replace ((0 <=? lenZ l1) && (lenZ l1 <? lenZ l1 + (1 + lenZ l2)))%Z with true by lia.
  f_equal. unfold lenZ. rewrite Nat2Z.id. apply upd_mid.
Qed.

Lemma rotate_gen (l : list vec) z tail : foldM swap_prev (rev (zrange 1 (lenZ l + 1))) ((l ++ [z]) ++ tail) = Ok ((z :: l) ++ tail).
Proof.
  revert z tail. induction l as [|a l IH] using rev_ind; intros z tail.
  - cbn. reflexivity.
  - rewrite lenZ_app. change (lenZ [a]) with 1%Z. pose proof (lenZ_nonneg l).
    rewrite zrange_snoc by lia. replace (lenZ l + 1 + 1 - 1)%Z with (lenZ l + 1)%Z by lia. rewrite rev_app_distr. cbn [rev app foldM].
    assert (E : swap_prev (((l ++ [a]) ++ [z]) ++ tail) (lenZ l + 1) = Ok ((l ++ [z]) ++ [a] ++ tail)).
    { unfold swap_prev. replace (lenZ l + 1 - 1)%Z with (lenZ l) by lia.
      assert (L : (lenZ l + 1)%Z = lenZ (l ++ [a])) by (rewrite lenZ_app; reflexivity).
      assert (E1 : ((l ++ [a]) ++ [z]) ++ tail = (l ++ [a]) ++ z :: tail) by (rewrite <- (app_assoc (l ++ [a])); reflexivity).
      assert (E2 : (l ++ [a]) ++ z :: tail = l ++ a :: z :: tail) by (rewrite <- app_assoc; reflexivity).
      rewrite E1, L, rd_mid. cbn [bind]. rewrite E2 at 1. rewrite rd_mid. cbn [bind]. rewrite wr_mid. cbn [bind].
      replace ((l ++ [a]) ++ a :: tail) with (l ++ a :: a :: tail) by (rewrite <- app_assoc; reflexivity). rewrite wr_mid. f_equal. rewrite <- app_assoc. reflexivity. }
    rewrite E. cbn [bind]. rewrite IH. f_equal. cbn [app]. now rewrite <- app_assoc.
Qed.
Lemma rotate_ok (l : list vec) z : rotate (l ++ [z]) = Ok (z :: l).
Proof. unfold rotate. rewrite lenZ_app. change (lenZ [z]) with 1%Z. pose proof (rotate_gen l z []) as E. now rewrite !app_nil_r in E. Qed.
Lemma rotate_nil : rotate [] = Ok [].
Proof. reflexivity. Qed.

Lemma nthZ_snoc_lt {A} (l : list A) z i : (0 <= i < lenZ l)%Z -> nthZ (l ++ [z]) i = nthZ l i.
Proof. intros H. apply nthZ_app_l. lia. Qed.

(** One slot update: the newest term in front, the oldest dropped. *)
Lemma slots_update (h h' : list vec) (newest : res vec) :
  (do l <- rotate h; if (0 <? lenZ l)%Z then do c <- newest; wr l 0 c else Ok l) = Ok h' ->
  lenZ h' = lenZ h /\ (forall i, (1 <= i < lenZ h)%Z -> nthZ h' i = nthZ h (i - 1)) /\
  ((0 < lenZ h)%Z -> exists c, newest = Ok c /\ nthZ h' 0 = Some c).
Proof.
  intros H. destruct h as [|a t] using rev_ind.
  - cbn in H. injection H as <-. repeat split; intros; try (unfold lenZ in *; cbn in *; lia).
  - clear IHt. rewrite rotate_ok in H. cbn [bind] in H. rewrite lenZ_cons in H. pose proof (lenZ_nonneg t).
    replace (0 <? 1 + lenZ t)%Z with true in H by lia. apply bind_ok_inv in H. destruct H as (c & Ec & H).
    pose proof (wr_mid [] t a c) as W. cbn [app] in W. change (lenZ []) with 0%Z in W. rewrite W in H. injection H as <-.
    rewrite lenZ_app, lenZ_cons. change (lenZ [a]) with 1%Z. split; [lia|]. split.
    + intros i Hi. rewrite nthZ_cons_pos by lia. symmetry. apply nthZ_snoc_lt. lia.
    + intros _. exists c. split; [exact Ec|reflexivity].
Qed.

Lemma rhsvel_slots n m D P ops conv s rhs s1 : rhs_velocity n m D P ops conv s = Ok (rhs, s1) ->
  (do l <- rotate (s_conv s); if (0 <? lenZ l)%Z then do c <- (do c <- conv (s_bc s) (s_U s); Ok (vscale (-1) c)); wr l 0 c else Ok l) = Ok (s_conv s1) /\
  (do l <- rotate (s_diff s); if (0 <? lenZ l)%Z then do c <- (do c <- correction_mult m (nranks D) (o_L ops) (s_bc s);
       Ok (vscale (p_nu P) (vaxpy c 1 (mvec (n_velocity m) (entry (op_log (o_L ops))) (s_U s))))); wr l 0 c else Ok l) = Ok (s_diff s1).
Proof.
  unfold rhs_velocity. intros H.
  apply bind_ok_inv in H. destruct H as (c1 & E1 & H). apply bind_ok_inv in H. destruct H as (c2 & E2 & H).
  apply bind_ok_inv in H. destruct H as (r1 & _ & H). apply bind_ok_inv in H. destruct H as (d1 & E3 & H). apply bind_ok_inv in H. destruct H as (d2 & E4 & H).
  apply bind_ok_inv in H. destruct H as (r2 & _ & H). apply bind_ok_inv in H. destruct H as (B1 & EB & H).
  apply bind_ok_inv in H. destruct H as (c & Ec & H). injection H as <- <-. cbn [s_conv s_diff]. split.
  - rewrite E1. cbn [bind]. rewrite <- E2. destruct (0 <? lenZ c1)%Z; [|reflexivity]. destruct (conv (s_bc s) (s_U s)); reflexivity.
  - rewrite E3. cbn [bind]. rewrite <- E4. destruct (0 <? lenZ d1)%Z; [|reflexivity]. destruct (correction_mult m (nranks D) (o_L ops) (s_bc s)); reflexivity.
Qed.

Section History.
Variables (m : mesh) (D : dec) (P : nspar) (ops : nsops) (conv : boundary -> vec -> res vec) (vs ps : vec -> vec -> vec) (s0 : nsstate).
Local Notation diff_term := (diffusion_term m D P ops).
Local Notation conv_term := (convection_term conv).

Lemma history_gen (slots : nsstate -> list vec) (term : nsstate -> res vec) :
  (forall s s', advance m D P ops conv vs ps s = Ok s' ->
     (do l <- rotate (slots s); if (0 <? lenZ l)%Z then do c <- term s; wr l 0 c else Ok l) = Ok (slots s')) ->
  forall k s, ns_steps m D P ops conv vs ps k s0 = Ok s ->
    lenZ (slots s) = lenZ (slots s0) /\
    forall i, (0 <= i < lenZ (slots s0))%Z ->
      if (i <? Z.of_nat k)%Z
      then exists s' v, ns_steps m D P ops conv vs ps (Z.to_nat (Z.of_nat k - 1 - i)) s0 = Ok s' /\ term s' = Ok v /\ nthZ (slots s) i = Some v
      else nthZ (slots s) i = nthZ (slots s0) (i - Z.of_nat k).
Proof.
  intros Hstep. induction k as [|k IH]; intros s H.
  - injection H as <-. split; [reflexivity|]. intros i Hi. replace (i <? Z.of_nat 0)%Z with false by lia. f_equal. lia.
  - cbn [ns_steps] in H. apply bind_ok_inv in H. destruct H as (s' & Es & Ea). destruct (IH s' Es) as [L I].
    apply Hstep in Ea. apply slots_update in Ea. destruct Ea as (L' & Sh & New). split; [lia|]. intros i Hi.
    destruct (Z.eq_dec i 0) as [->|Hne].
    + replace (0 <? Z.of_nat (S k))%Z with true by lia. destruct (New ltac:(lia)) as (v & Ev & Nv). exists s', v.
      replace (Z.to_nat (Z.of_nat (S k) - 1 - 0)) with k by lia. auto.
    + rewrite Sh by lia. specialize (I (i - 1)%Z ltac:(lia)). destruct (Z.ltb_spec (i - 1) (Z.of_nat k)).
      * replace (i <? Z.of_nat (S k))%Z with true by lia. replace (Z.of_nat (S k) - 1 - i)%Z with (Z.of_nat k - 1 - (i - 1))%Z by lia. exact I.
      * replace (i <? Z.of_nat (S k))%Z with false by lia. rewrite I. f_equal. lia.
Qed.

Lemma history_conv k s : ns_steps m D P ops conv vs ps k s0 = Ok s ->
  lenZ (s_conv s) = lenZ (s_conv s0) /\
  forall i, (0 <= i < lenZ (s_conv s0))%Z ->
    if (i <? Z.of_nat k)%Z
    then exists s' v, ns_steps m D P ops conv vs ps (Z.to_nat (Z.of_nat k - 1 - i)) s0 = Ok s' /\ conv_term s' = Ok v /\ nthZ (s_conv s) i = Some v
    else nthZ (s_conv s) i = nthZ (s_conv s0) (i - Z.of_nat k).
Proof.
  apply (history_gen s_conv conv_term). intros s1 s2 Ha. destruct (advance_inv _ _ _ _ _ _ _ _ _ Ha) as (r1 & t1 & r2 & E & _ & _ & _ & _ & _ & _ & _ & _ & Ec & _).
  rewrite Ec. apply rhsvel_slots in E. exact (proj1 E).
Qed.
Lemma history_diff k s : ns_steps m D P ops conv vs ps k s0 = Ok s ->
  lenZ (s_diff s) = lenZ (s_diff s0) /\
  forall i, (0 <= i < lenZ (s_diff s0))%Z ->
    if (i <? Z.of_nat k)%Z
    then exists s' v, ns_steps m D P ops conv vs ps (Z.to_nat (Z.of_nat k - 1 - i)) s0 = Ok s' /\ diff_term s' = Ok v /\ nthZ (s_diff s) i = Some v
    else nthZ (s_diff s) i = nthZ (s_diff s0) (i - Z.of_nat k).
Proof.
  apply (history_gen s_diff diff_term). intros s1 s2 Ha. destruct (advance_inv _ _ _ _ _ _ _ _ _ Ha) as (r1 & t1 & r2 & E & _ & _ & _ & _ & _ & _ & _ & _ & _ & Ed).
  rewrite Ed. apply rhsvel_slots in E. exact (proj2 E).
Qed.
End History.

(** * The momentum right-hand side *)
Lemma add_terms_value coeffs h y y' i : add_terms coeffs h y = Ok y' -> y' i = y i + weighted coeffs h i.
Proof.
  unfold add_terms, weighted, zsum. revert y. induction (zrange 0 (lenZ h)) as [|j t IH]; intros y H; cbn [foldM sumR] in *.
  - injection H as <-. lra.
  - apply bind_ok_inv in H. destruct H as (y1 & E & H). apply bind_ok_inv in E. destruct E as (c & Ec & E). apply bind_ok_inv in E. destruct E as (v & Ev & E).
    injection E as <-. apply rd_Ok in Ec. apply rd_Ok in Ev. rewrite (IH _ H), Ec, Ev. unfold vaxpy. lra.
Qed.

Lemma rhs_value n m D P ops conv s rhs s1 : rhs_velocity n m D P ops conv s = Ok (rhs, s1) ->
  exists c, correction_mult m (nranks D) (o_L ops) (s_bc s1) = Ok c /\
    forall i, rhs i = s_U s i / p_dt P - mvec n (o_G ops) (s_p s) i
                      + weighted (p_cexp P) (s_conv s1) i + weighted (p_dexp P) (s_diff s1) i + p_dimp P * p_nu P * c i.
Proof.
  unfold rhs_velocity. intros H.
  apply bind_ok_inv in H. destruct H as (c1 & E1 & H). apply bind_ok_inv in H. destruct H as (c2 & E2 & H).
  apply bind_ok_inv in H. destruct H as (r1 & R1 & H). apply bind_ok_inv in H. destruct H as (d1 & E3 & H). apply bind_ok_inv in H. destruct H as (d2 & E4 & H).
  apply bind_ok_inv in H. destruct H as (r2 & R2 & H). apply bind_ok_inv in H. destruct H as (B1 & EB & H).
  apply bind_ok_inv in H. destruct H as (c & Ec & H). injection H as <- <-. exists c. cbn [s_bc s_conv s_diff]. split; [exact Ec|]. intros i.
  unfold vaxpy at 1. rewrite (add_terms_value _ _ _ _ i R2), (add_terms_value _ _ _ _ i R1). unfold vaxpy, vscale. lra.
Qed.
