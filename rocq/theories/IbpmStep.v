(** The coupled solver: momentum equation, sampled velocity, totality. The
    decoupled solver. *)
From Coq Require Import String ZifyBool Permutation.
From Verif Require Import Prelude ZSum RSum TypesModel GridModel GridSpec GridProof MeshProof IndexModel IndexSpec IndexProof
  BoundaryModel BoundarySpec BoundaryProof OperatorModel OperatorSpec OperatorProof BStateProof LapProof DivProof GradProof AdjProof SymProof
  MatModel BnModel BnSpec BnProof NSModel NSSpec NSProof NSTotal DriverModel DriverProof BodyModel BodySpec BodyProof
  DeltaModel DeltaSpec DeltaSum DeltaProps IbpmModel IbpmSpec IbpmProof.
Local Open Scope R_scope.

(** * Sampling *)
Lemma sampled_row m D h B name bodies types values hist E H row b i c X U K w :
  mesh_setup m D -> uniform_around m h w bodies -> bodies_ok m D bodies -> getKernel name = Ok (K, w) ->
  bc_fits m types -> boundary_after m D types values hist B -> wide_enough m w ->
  ib_operators m D B name bodies = Ok (E, H) ->
  nthZ (body_layout (nranks D) (m_dim m) (map fst bodies)) row = Some (b, i, c) -> located bodies b i X ->
  mvec (n_velocity m) E U row = sampled m D K h c X U.
Proof.
  intros Hs Hu Hbo HK Hb HB Hw HE Hrow Hl. unfold mvec, sampled. apply zsum_ext. intros id Hid.
  destruct (velocity_ids m D id (setup_facts _ _ Hs) Hid) as (f & p & Ei). rewrite Ei.
  destruct (ib_entries m D h Hs name K w HK bodies Hu B types values hist Hb HB Hw Hbo E H HE row b i c X id f p Hrow Hl Ei) as [EH ->]. rewrite EH.
  destruct (f =? c)%Z; lra.
Qed.
Lemma located_row m D bodies b i c X : bodies_ok m D bodies -> located bodies b i X -> (0 <= c < m_dim m)%Z ->
  exists row, (0 <= row < n_forces m bodies)%Z /\ nthZ (body_layout (nranks D) (m_dim m) (map fst bodies)) row = Some (b, i, c).
Proof.
  intros Hbo (bc & Eb & EX) Hc. destruct Hbo as [Hok Hf]. rewrite Forall_forall in Hf. destruct (Hf bc (nthZ_In _ _ _ Eb)) as [L _].
  pose proof (nthZ_Some_range _ _ _ EX).
  destruct (In_nthZ (body_layout (nranks D) (m_dim m) (map fst bodies)) (b, i, c)) as (row & Hr & Er).
  { apply body_layout_In; auto. exists (fst bc). rewrite nthZ_map, Eb. cbn. split; [reflexivity|]. lia. }
  exists row. split; [|exact Er]. unfold n_forces. rewrite <- (body_layout_len (nranks D) (m_dim m) (map fst bodies) Hok). exact Hr.
Qed.

(** * Momentum *)
Lemma momentum_core nv L dt c N BN (y : vec) U1 rhs1 : dt <> 0 -> createBnHead nv L dt c N = Ok BN ->
  solves nv (implicit_matrix mident dt c L) U1 rhs1 ->
  forall i, (0 <= i < nv)%Z ->
    mvec nv (implicit_matrix mident dt c L) (vaxpy U1 (-1) (mvec nv BN y)) i + y i
    = rhs1 i + mvec nv (mpow nv (mscale (c * dt) L) (Z.to_nat N)) y i.
Proof.
  intros Hdt EB Hsol i Hi.
  assert (Hn : (1 <= N)%Z) by (unfold createBnHead in EB; destruct (Z.ltb_spec N 1); [discriminate|lia]).
  destruct (bnhead_lemma nv L dt c N Hdt Hn) as (BN' & EB' & Hinv). rewrite EB in EB'. injection EB' as <-.
  rewrite mvec_axpy, Hsol by auto.
  rewrite <- mvec_mmul. rewrite (mvec_ext nv _ (msub mident (mpow nv (mscale (c * dt) L) (Z.to_nat N))) y y i) by (auto; intros; now apply Hinv).
  assert (EI : mvec nv (msub mident (mpow nv (mscale (c * dt) L) (Z.to_nat N))) y i = y i - mvec nv (mpow nv (mscale (c * dt) L) (Z.to_nat N)) y i).
  { unfold mvec, zsum, msub. rewrite (sumR_ext _ (fun j => mident i j * y j - mpow nv (mscale (c * dt) L) (Z.to_nat N) i j * y j)) by (intros; lra).
    rewrite sumR_minus. f_equal. rewrite (sumR_single _ _ i); [|apply zrange_NoDup|now apply zrange_In|].
    - unfold mident. rewrite Z.eqb_refl. lra.
    - intros j _ Hj. unfold mident. replace (i =? j)%Z with false by lia. lra. }
  rewrite EI. lra.
Qed.
Lemma momentum_lemma nv n L dt c N BN G q U1 rhs1 : dt <> 0 -> createBnHead nv L dt c N = Ok BN ->
  solves nv (implicit_matrix mident dt c L) U1 rhs1 ->
  forall i, (0 <= i < nv)%Z ->
    mvec nv (implicit_matrix mident dt c L) (vaxpy U1 (-1) (mvec n (mmul nv BN G) q)) i + mvec n G q i
    = rhs1 i + mvec nv (mpow nv (mscale (c * dt) L) (Z.to_nat N)) (mvec n G q) i.
Proof.
  intros Hdt EB Hsol i Hi. rewrite <- (momentum_core nv L dt c N BN (mvec n G q) U1 rhs1 Hdt EB Hsol i Hi). f_equal.
  apply mvec_ext; [reflexivity|]. intros l _. unfold vaxpy. rewrite mvec_mmul. reflexivity.
Qed.

Section Coupled.
Variables (m : mesh) (D : dec) (P : nspar) (types : Z -> Z -> bctype) (values : Z -> Z -> R) (name : string) (bodies : list (body * list (list R))).
Hypotheses (Hset : mesh_setup m D) (Hb : bc_fits m types) (Hbo : bodies_ok m D bodies).
Let F : mfacts m D := setup_facts _ _ Hset.
Local Notation nv := (n_velocity m).
Local Notation np := (n_pressure m).
Local Notation nf := (n_forces m bodies).
Local Notation Lay := (nest_layout (nranks D) (pressure_l D) (bp_nLclAllProcs (m_dim m) (map fst bodies))).

Lemma nest_sub_at b k i q : nthZ Lay i = Some (b, k) -> nest_sub Lay b q k = q i.
Proof.
  intros Ei. unfold nest_sub. destruct (findpos_In pair_eqb pair_eqb_spec _ _ 0%Z (nthZ_In _ _ _ Ei)) as [j Hj]. rewrite Hj. f_equal.
  apply (findpos_Some pair_eqb pair_eqb_spec) in Hj. destruct Hj as [_ Hj]. rewrite Z.sub_0_r in Hj.
  assert (ND : NoDup Lay).
  { apply nest_NoDup; [intros; now apply (pressure_l_nonneg m D)|intros; now apply (forces_nonneg m D)]. }
  eapply nthZ_NoDup_inj; eauto.
Qed.

Lemma nest_col_mvec A0 A1 q i : mvec (np + nf) (nest_cols Lay A0 A1) q i = mvec np A0 (nest_sub Lay 0 q) i + mvec nf A1 (nest_sub Lay 1 q) i.
Proof.
  unfold mvec at 1. rewrite (lay_sum m D bodies Hset Hbo (fun u => if (fst u =? 0)%Z then A0 i (snd u) * nest_sub Lay 0 q (snd u) else A1 i (snd u) * nest_sub Lay 1 q (snd u))).
  - reflexivity.
  - intros j [b k] Ej. unfold nest_cols. rewrite Ej. cbn [fst snd].
    assert (Hbk : (b = 0 \/ b = 1)%Z) by (pose proof (proj1 (lay_In m D bodies Hset Hbo b k) (nthZ_In _ _ _ Ej)); lia).
    destruct Hbk as [->| ->]; cbn [Z.eqb]; rewrite (nest_sub_at _ _ _ _ Ej); reflexivity.
Qed.

(** Everything the step of the coupled solver does to the momentum. *)
Lemma coupled_momentum_lemma t0 n0 U0 p0 O s0 conv vs ps s s2 : p_dt P <> 0 ->
  ib_init m D P types values name bodies t0 n0 U0 p0 = Ok (O, s0) ->
  ib_advance m D P O conv vs ps s = Ok s2 ->
  exists B E H g L rhs1 B1 c, boundary_after m D types values [OpICs U0] B /\ ib_operators m D B name bodies = Ok (E, H) /\
    createGradient m D false = Ok g /\ createLaplacian m D B = Ok L /\
    bc_call m D (OpEqs (s_U s) (p_dt P)) (s_bc s) = Ok B1 /\ correction_mult m (nranks D) L B1 = Ok c /\
    let press := nest_sub Lay 0 in let force := nest_sub Lay 1 in let k := p_dimp P * p_nu P in
    (forall i, rhs1 i = s_U s i / p_dt P - mvec np (entry g) (press (s_p s)) i + mvec nf H (force (s_p s)) i
                        + weighted (p_cexp P) (s_conv s2) i + weighted (p_dexp P) (s_diff s2) i + k * c i) /\
    (forall j, (0 <= j < np)%Z -> press (s_p s2) j = press (s_p s) j + press (s_dP s2) j) /\
    (forall j, (0 <= j < nf)%Z -> force (s_p s2) j = force (s_p s) j + force (s_dP s2) j) /\
    (solves nv (implicit_matrix mident (p_dt P) k (entry (op_log L))) (vs (s_U s) rhs1) rhs1 ->
     forall i, (0 <= i < nv)%Z ->
       let imp := fun j => mvec np (entry g) (press (s_dP s2)) j - mvec nf H (force (s_dP s2)) j in
       mvec nv (implicit_matrix mident (p_dt P) k (entry (op_log L))) (s_U s2) i + imp i
       = rhs1 i + mvec nv (mpow nv (mscale (k * p_dt P) (entry (op_log L))) (Z.to_nat (p_bn P))) imp i).
Proof.
  intros Hdt HI Ha.
  destruct (ib_init_inv _ _ _ _ _ _ _ Hset Hb _ _ _ _ _ _ HI) as (B0 & HB0 & EO & _).
  destruct (ib_createOperators_inv _ _ _ _ _ _ _ EO) as (d & g & l & E & H & BN & Ed & Eg & El & EI & EB & EOps). cbv zeta in EOps.
  destruct (ib_advance_inv _ _ _ _ _ _ _ _ _ Ha) as (rhs1 & s1 & b & X1 & X2 & XB1 & XdP & XU & Xp & XB2 & _ & _ & Xc & Xd).
  destruct (rhs_value _ _ _ _ _ _ _ _ _ X1) as (c & Ec & Hr). subst O. cbn [ib_ns ib_D ib_lay ib_n o_D o_G o_L o_A o_BNG o_DBNG begun s_U s_p] in *.
  exists B0, E, H, g, l, rhs1, (s_bc s1), c. do 6 (split; [assumption|]). cbv zeta.
  assert (NG : forall q i, mvec (np + nf) (nest_cols Lay (entry g) (mscale (-1) H)) q i
                      = mvec np (entry g) (nest_sub Lay 0 q) i - mvec nf H (nest_sub Lay 1 q) i).
  { intros q i. rewrite nest_col_mvec. assert (E1 : mvec nf (mscale (-1) H) (nest_sub Lay 1 q) i = - mvec nf H (nest_sub Lay 1 q) i); [|lra].
    unfold mvec, mscale, zsum. rewrite <- sumR_opp. apply sumR_ext. intros; lra. }
  assert (SubP : forall b j, (b = 0 /\ 0 <= j < np)%Z \/ (b = 1 /\ 0 <= j < nf)%Z -> nest_sub Lay b (s_p s2) j = nest_sub Lay b (s_p s) j + nest_sub Lay b (s_dP s2) j).
  { intros b' j Hj. apply (lay_In m D bodies Hset Hbo) in Hj. apply In_nthZ in Hj. destruct Hj as (i & _ & Ei). rewrite !(nest_sub_at _ _ _ _ Ei), Xp, XdP. unfold vaxpy. lra. }
  split; [|split; [|split]].
  - intros i. rewrite Hr, NG, Xc, Xd. lra.
  - intros j Hj. apply SubP. auto.
  - intros j Hj. apply SubP. auto.
  - intros Hsol i Hi. pose proof (momentum_lemma _ (np + nf) _ _ _ _ _ (nest_cols Lay (entry g) (mscale (-1) H)) (s_dP s2) _ _ Hdt EB Hsol i Hi) as M.
    rewrite XU, <- XdP. rewrite <- (NG (s_dP s2) i). rewrite M. f_equal. apply mvec_ext; [reflexivity|]. intros j _. apply NG.
Qed.

Lemma coupled_total K w conv vs ps t0 n0 U0 p0 k : getKernel name = Ok (K, w) -> (1 <= p_bn P)%Z ->
  (forall b i X, located bodies b i X -> inside_domain m X /\ in_reach m types w X) ->
  (forall b bc r, nthZ bodies b = Some bc -> (0 <= r < nranks D)%Z -> (0 < b_l (fst bc) r)%Z) ->
  (forall hist B x, boundary_after m D types values ([OpICs U0] ++ hist) B -> is_ok (conv B x)) ->
  exists O s0 s, ib_init m D P types values name bodies t0 n0 U0 p0 = Ok (O, s0) /\ run_steps (ib_advance m D P O conv vs ps) k s0 = Ok s.
Proof.
  intros HK Hn Hin Hrk Hc.
  assert (I : exists O s0, ib_init m D P types values name bodies t0 n0 U0 p0 = Ok (O, s0)).
  { unfold ib_init. destruct (mapM_total (fun r => createBoundary m D r types values) (zrange 0 (nranks D))) as [bl Ebl].
    { intros r Hr. apply zrange_In in Hr. destruct (pure_after m D types values [] F Hb r Hr) as (b0 & E & _). exists b0. exact E. }
    rewrite Ebl. cbn [bind]. pose proof (create_after m D types values bl F Hb Ebl) as H0.
    destruct (bc_call_after m D types values [] _ (OpICs U0) F Hb H0) as (B & EB & HB). rewrite EB. cbn [bind]. cbn [app] in HB.
    unfold ib_createOperators. rewrite (createDivergence_ok m D types values false [OpICs U0] B F Hb HB). cbn [bind].
    rewrite createGradient_ok by auto. cbn [bind]. rewrite (createLaplacian_ok m D types values [OpICs U0] B F Hb HB). cbn [bind].
    destruct (proj2 (delta_defined m D B name K w bodies types values [OpICs U0] Hset Hbo HK Hb HB) (conj Hin Hrk)) as (log & El).
    unfold ib_operators. destruct (AlgebraProps.diagonal_operators m D Hset) as (Rm & Ri & Mm & Mq & Id & ER & _ & EM & _).
    rewrite ER, EM, HK. cbn [bind fst snd]. rewrite El. cbn [bind].
    unfold createBnHead. replace (p_bn P <? 1)%Z with false by lia. destruct (p_bn P =? 1)%Z; cbn [bind]; eauto. }
  destruct I as (O & s0 & HI). exists O, s0.
  destruct (ib_init_inv _ _ _ _ _ _ _ Hset Hb _ _ _ _ _ _ HI) as (B0 & HB0 & EO & Es0).
  destruct (ib_createOperators_inv _ _ _ _ _ _ _ EO) as (d & g & l & E & H & BN & Ed & Eg & El & EI & EB & EOps). cbv zeta in EOps.
  assert (S : forall j, exists s, run_steps (ib_advance m D P O conv vs ps) j s0 = Ok s /\ lenZ (s_conv s) = lenZ (p_cexp P) /\ lenZ (s_diff s) = lenZ (p_dexp P)).
  { induction j as [|j (s & Hs & Lc & Ld)].
    - exists s0. split; [reflexivity|]. rewrite Es0. cbn [s_conv s_diff]. now rewrite !lenZ_map.
    - destruct (ib_steps_boundary _ _ _ _ _ _ _ Hset Hb _ _ _ _ _ _ _ _ _ _ _ HI Hs) as (h1 & Hh).
      cbn [run_steps]. rewrite Hs. cbn [bind].
      assert (A : is_ok (ib_advance m D P O conv vs ps s)).
      { unfold ib_advance. apply (advance_with_total m D P types values F Hb (ib_n O) (ib_assembleRHSPoisson m D P O) conv vs ps (ib_ns O) U0 h1 s); auto; try lia.
        - intros h2 B HB. rewrite (createLaplacian_ok m D types values [OpICs U0] B0 F Hb HB0) in El. injection El as <-. rewrite EOps. cbn [ib_ns o_L].
          eexists; eapply correct; eauto.
        - intros h2 B U HB. unfold ib_assembleRHSPoisson. rewrite (createDivergence_ok m D types values false [OpICs U0] B0 F Hb HB0) in Ed. injection Ed as <-. rewrite EOps. cbn [ib_ns o_D].
          assert (Cx : is_ok (correction_mult m (nranks D) (op_of m D types values (div_rows m D false) [OpICs U0]) B)) by (eexists; eapply correct; eauto).
          destruct Cx as [c ->]. cbn [bind]. eexists. reflexivity.
        - exact (Hc h1 _ _ Hh). }
      destruct A as [s' Ea]. exists s'. split; [exact Ea|].
      destruct (ib_advance_inv _ _ _ _ _ _ _ _ _ Ea) as (rhs1 & s1 & b & X1 & _ & _ & _ & _ & _ & _ & _ & _ & Xc & Xd).
      destruct (rhsvel_slots _ _ _ _ _ _ _ _ _ X1) as [S1 S2]. apply slots_update in S1, S2. cbn [begun s_conv s_diff] in S1, S2. rewrite Xc, Xd. destruct S1 as [S1 _], S2 as [S2 _]. lia. }
  destruct (S k) as (s & Hs & _). exists s. auto.
Qed.
End Coupled.
