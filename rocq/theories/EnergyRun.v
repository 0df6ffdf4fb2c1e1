(** The energy along runs of the solvers. *)
From Coq Require Import Lia ZifyBool String List.
Import ListNotations.
From Verif Require Import Prelude ZSum RSum TypesModel GridModel GridSpec GridProof MeshProof
  IndexModel IndexSpec IndexProof BoundaryModel BoundarySpec BoundaryProof OperatorModel OperatorSpec OperatorProof BStateProof LapProof DivProof GradProof
  AdjProof SymProof MatModel BnModel NSModel NSSpec NSProof NSPin BnSpec BnProof LinAlg UniqueProof ConvSpec EnergySpec EnergyProof
  BodyModel DeltaModel DeltaSpec IbpmModel IbpmSpec IbpmProof AlgebraProps.
Local Open Scope R_scope.

Lemma ics_one U0 : has_ics [OpICs U0].
Proof. exists U0. now left. Qed.
Lemma min_three_two m : periodic_min m 3 -> periodic_min m 2.
Proof. intros H d Hd Hp. specialize (H d Hd Hp). lia. Qed.

Section NS.
Variables (m : mesh) (D : dec) (P : nspar) (types : Z -> Z -> bctype) (values : Z -> Z -> R) (t0 : R) (n0 : Z) (U0 p0 : vec) (O : nsops) (s0 : nsstate).
Hypotheses (Hset : mesh_setup m D) (Hb : bc_fits m types) (Hmin : periodic_min m 3) (Hneu : no_normal_neumann m types) (Hu : undriven m types values).
Hypotheses (Hbn : p_bn P = 1%Z) (Hdt : 0 < p_dt P) (Hc : 0 <= p_dimp P * p_nu P).
Hypothesis HI : ns_init m D P types values t0 n0 U0 p0 = Ok (O, s0).
Let F : mfacts m D := setup_facts _ _ Hset.

Lemma ns_adjoint : forall r c, (0 <= r < n_pressure m)%Z -> (0 <= c < n_velocity m)%Z ->
  entry (op_log (o_D O)) r c = - (volume m D c * o_G O c r).
Proof.
  destruct (ns_init_inv _ _ _ _ _ _ _ _ _ _ _ F Hb HI) as (B & HB & EO & _).
  destruct (createOperators_inv _ _ _ _ _ EO) as (d & g & l & BN & Ed & Eg & El & EB & ->). cbn [o_D o_G].
  rewrite (createGradient_ok m D false F) in Eg. injection Eg as <-. rewrite (createDivergence_ok m D types values false [OpICs U0] B F Hb HB) in Ed. injection Ed as <-.
  intros r c Hr Hcc. rewrite (dg_entry m D types values false [OpICs U0] F Hb (ics_one U0) (min_three_two m Hmin) Hneu r c Hr Hcc). now rewrite (weight_volume m D Hset c Hcc).
Qed.

Lemma ns_budget conv vs ps k s s2 : exact_solver (n_velocity m) (o_A O) vs -> exact_solver (n_pressure m) (o_DBNG O) ps ->
  ns_steps m D P O conv vs ps k s0 = Ok s -> advance m D P O conv vs ps s = Ok s2 ->
  (forall r, (0 <= r < n_pressure m)%Z -> mvec (n_velocity m) (entry (op_log (o_D O))) (s_U s2) r = 0) /\
  exists rhs1 s1, assembleRHSVelocity m D P O conv (begun P s) = Ok (rhs1, s1) /\
    let u1 := vs (s_U s) rhs1 in
    stored_energy (n_pressure m) m D P O s2 = stored_energy (n_pressure m) m D P O s - kinetic m D (fun i => u1 i - s_U s i)
      + p_dt P * (p_dimp P * p_nu P * inner m D u1 (mvec (n_velocity m) (entry (op_log (o_L O))) u1)
                  + inner m D u1 (fun i => weighted (p_cexp P) (s_conv s2) i + weighted (p_dexp P) (s_diff s2) i)).
Proof.
  intros Hv Hp Hst Ha. destruct (steps_boundary _ _ _ _ _ _ _ _ _ _ _ _ _ _ _ _ F Hb HI Hst) as (h1 & HB).
  pose proof ns_adjoint as Hadj.
  destruct (ns_init_inv _ _ _ _ _ _ _ _ _ _ _ F Hb HI) as (B & HB0 & EO & _).
  destruct (createOperators_inv _ _ _ _ _ EO) as (d & g & l & BN & Ed & Eg & El & EB & EOO).
  rewrite (createDivergence_ok m D types values false [OpICs U0] B F Hb HB0) in Ed. injection Ed as <-.
  rewrite (createLaplacian_ok m D types values [OpICs U0] B F Hb HB0) in El. injection El as <-.
  rewrite Hbn in EB.
  refine (step_budget (n_pressure m) m D P types values O (entry (op_log (o_D O))) (fun _ => 1) [OpICs U0] h1 (assembleRHSPoisson m D P O) conv vs ps s s2
    Hset Hb Hmin Hu (ics_one U0) Hdt Hc HB _ _ _ Hadj _ eq_refl _ _ _ Hv Hp Ha); rewrite ?EOO; cbn [o_D o_G o_L o_A o_BNG o_DBNG]; auto.
  - exact (np_pos m D Hset).
  - intros c j Hcc Hj. now apply (bn_one _ _ _ _ _ _ EB).
  - intros c Hcc. rewrite (zsum_ext _ (fun r => entry (op_log (op_of m D types values (div_rows m D false) [OpICs U0])) r c)) by (intros; ring).
    apply div_column_sum; auto; [apply ics_one|now apply min_three_two].
  - intros U B1 b h HB1 E i Hi. unfold assembleRHSPoisson in E. apply bind_ok_inv in E. destruct E as (c & Ec & E). injection E as <-.
    cbn [o_D] in Ec |- *. pose proof (undriven_correction m D types values F Hb Hu _ _ _ _ _ (ics_one U0) HB1 Ec) as C0.
    destruct (p_refp P); cbn [andb]; [destruct (i =? 0)%Z; auto|]; cbv zeta; cbv zeta; unfold vaxpy; rewrite C0; cbn [o_D]; rewrite Rplus_0_l, Rmult_1_l; reflexivity.
Qed.
End NS.

(** Steps never increase the energy when nothing drives the flow. *)
Lemma weighted_nil i : weighted [] [] i = 0.
Proof. reflexivity. Qed.

Section IB.
Variables (m : mesh) (D : dec) (P : nspar) (types : Z -> Z -> bctype) (values : Z -> Z -> R) (name : string) (bodies : list (body * list (list R))).
Variables (t0 : R) (n0 : Z) (U0 p0 : vec) (O : ibops) (s0 : nsstate).
Hypotheses (Hset : mesh_setup m D) (Hb : bc_fits m types) (Hbo : bodies_ok m D bodies) (Hmin : periodic_min m 3) (Hneu : no_normal_neumann m types) (Hu : undriven m types values).
Hypotheses (Hbn : p_bn P = 1%Z) (Hdt : 0 < p_dt P) (Hc : 0 <= p_dimp P * p_nu P).
Hypothesis HI : ib_init m D P types values name bodies t0 n0 U0 p0 = Ok (O, s0).
Let F : mfacts m D := setup_facts _ _ Hset.
Let Lay := nest_layout (nranks D) (pressure_l D) (bp_nLclAllProcs (m_dim m) (map fst bodies)).

(** The interpolation operator is the volume-weighted transpose of the spreading operator. *)
Lemma spread_adjoint B E H : ib_operators m D B name bodies = Ok (E, H) ->
  forall r c, (0 <= c < n_velocity m)%Z -> E r c = volume m D c * H c r.
Proof.
  unfold ib_operators. destruct (Verif.AlgebraProps.diagonal_operators m D Hset) as (Rm & Ri & Mm & Mq & Id & -> & _ & -> & _ & _ & Dg). cbn [bind].
  intros X. apply bind_ok_inv in X. destruct X as ([K w] & _ & X). apply bind_ok_inv in X. destruct X as (dl & _ & X). injection X as <- <-.
  intros r c Hcc. destruct (velocity_ids m D c F Hcc) as (f & p & Ec). destruct (Dg c f p c Ec Hcc) as (DR & _ & DM & _). rewrite Z.eqb_refl in *.
  destruct (velocity_row m D c f p F Ec) as (Hf & Hp & _).
  unfold mdscale, vones, mdiag, mtranspose. rewrite DR, DM, (volume_at m D _ _ _ Ec), (volume_area m D Hset f p Hf Hp). ring.
Qed.
Lemma ib_adjoint : forall r c, (0 <= r < ib_n O)%Z -> (0 <= c < n_velocity m)%Z ->
  ib_D O r c = - (volume m D c * o_G (ib_ns O) c r).
Proof.
  destruct (ib_init_inv m D P types values name bodies Hset Hb _ _ _ _ _ _ HI) as (B & HB & EO & _).
  destruct (ib_createOperators_inv m D P name bodies _ _ EO) as (d & g & l & E & H & BN & Ed & Eg & El & EE & EB & ->). cbn [ib_D ib_ns o_G ib_n].
  rewrite (createGradient_ok m D false F) in Eg. injection Eg as <-. rewrite (createDivergence_ok m D types values false [OpICs U0] B F Hb HB) in Ed. injection Ed as <-.
  intros r c Hr Hcc. unfold nest_rows, nest_cols. fold Lay. destruct (nthZ Lay r) as [[b k]|] eqn:El'; [|ring].
  pose proof (nthZ_In _ _ _ El') as Hin. apply (lay_In m D bodies Hset Hbo) in Hin. destruct Hin as [[-> Hk]|[-> Hk]]; cbn [Z.eqb].
  - rewrite (dg_entry m D types values false [OpICs U0] F Hb (ics_one U0) (min_three_two m Hmin) Hneu k c Hk Hcc). now rewrite (weight_volume m D Hset c Hcc).
  - rewrite (spread_adjoint _ _ _ EE k c Hcc). unfold mscale. ring.
Qed.

Let zp : Z -> R := fun r => match nthZ Lay r with Some (b, _) => if (b =? 0)%Z then 1 else 0 | None => 0 end.
Lemma ib_budget conv vs ps k s s2 : exact_solver (n_velocity m) (o_A (ib_ns O)) vs -> exact_solver (ib_n O) (o_DBNG (ib_ns O)) ps ->
  run_steps (ib_advance m D P O conv vs ps) k s0 = Ok s -> ib_advance m D P O conv vs ps s = Ok s2 ->
  (forall r, (0 <= r < ib_n O)%Z -> mvec (n_velocity m) (ib_D O) (s_U s2) r = 0) /\
  exists rhs1 s1, rhs_velocity (ib_n O) m D P (ib_ns O) conv (begun P s) = Ok (rhs1, s1) /\
    let u1 := vs (s_U s) rhs1 in
    stored_energy (ib_n O) m D P (ib_ns O) s2 = stored_energy (ib_n O) m D P (ib_ns O) s - kinetic m D (fun i => u1 i - s_U s i)
      + p_dt P * (p_dimp P * p_nu P * inner m D u1 (mvec (n_velocity m) (entry (op_log (o_L (ib_ns O)))) u1)
                  + inner m D u1 (fun i => weighted (p_cexp P) (s_conv s2) i + weighted (p_dexp P) (s_diff s2) i)).
Proof.
  intros Hv Hp Hst Ha. destruct (ib_steps_boundary _ _ _ _ _ _ _ Hset Hb _ _ _ _ _ _ _ _ _ _ _ HI Hst) as (h1 & HB).
  pose proof ib_adjoint as Hadj.
  destruct (ib_init_inv m D P types values name bodies Hset Hb _ _ _ _ _ _ HI) as (B & HB0 & EO & _).
  destruct (ib_createOperators_inv m D P name bodies _ _ EO) as (d & g & l & E & H & BN & Ed & Eg & El & EE & EB & EOO).
  rewrite (createDivergence_ok m D types values false [OpICs U0] B F Hb HB0) in Ed. injection Ed as <-.
  rewrite (createLaplacian_ok m D types values [OpICs U0] B F Hb HB0) in El. injection El as <-.
  rewrite Hbn in EB. cbv zeta in EOO. fold Lay in EOO.
  assert (En : ib_n O = (n_pressure m + n_forces m bodies)%Z) by (rewrite EOO; reflexivity).
  refine (step_budget (ib_n O) m D P types values (ib_ns O) (ib_D O) zp [OpICs U0] h1 (ib_assembleRHSPoisson m D P O) conv vs ps s s2
    Hset Hb Hmin Hu (ics_one U0) Hdt Hc HB _ _ _ Hadj _ _ _ _ _ Hv Hp Ha); rewrite ?En.
  - rewrite EOO. reflexivity.
  - rewrite EOO. reflexivity.
  - pose proof (np_pos m D Hset). pose proof (lay_len m D bodies Hset Hbo) as LL. pose proof (lay_head m D bodies Hset Hbo) as LH. apply nthZ_Some_range in LH. lia.
  - intros c j Hcc Hj. rewrite EOO. cbn [ib_ns o_BNG o_G]. now apply (bn_one _ _ _ _ _ _ EB).
  - unfold zp, Lay. now rewrite (lay_head m D bodies Hset Hbo).
  - intros c Hcc. rewrite EOO. cbn [ib_D].
    rewrite (lay_sum m D bodies Hset Hbo (fun u => if (fst u =? 0)%Z then entry (op_log (op_of m D types values (div_rows m D false) [OpICs U0])) (snd u) c else 0)).
    + cbn [fst snd Z.eqb]. rewrite (zsum_ext (fun _ => 0) (fun _ => 0 * 0)) by (intros; ring).
      assert (Z0 : zsum (fun _ : Z => 0 * 0) 0 (n_forces m bodies) = 0) by (apply sumR_zero; intros; ring). rewrite Z0, Rplus_0_r.
      apply div_column_sum; auto; [apply ics_one|now apply min_three_two].
    + intros i [b0 k0] Ei. unfold zp, nest_rows. fold Lay in Ei. rewrite Ei. cbn [fst snd]. destruct (b0 =? 0)%Z; [apply Rmult_1_l|apply Rmult_0_l].
  - rewrite EOO. reflexivity.
  - intros U B1 b h HB1 X i Hi. unfold ib_assembleRHSPoisson in X. apply bind_ok_inv in X. destruct X as (c & Ec & X). injection X as <-.
    assert (Eo : o_D (ib_ns O) = op_of m D types values (div_rows m D false) [OpICs U0]) by (rewrite EOO; reflexivity).
    rewrite Eo in Ec. pose proof (undriven_correction m D types values F Hb Hu _ _ _ _ _ (ics_one U0) HB1 Ec) as C0.
    assert (V : forall j, match nthZ (ib_lay O) j with Some (b, k) => if (b =? 0)%Z then mvec (n_velocity m) (ib_D O) U j + c k else mvec (n_velocity m) (ib_D O) U j
       | None => mvec (n_velocity m) (ib_D O) U j end = mvec (n_velocity m) (ib_D O) U j).
    { intros j. destruct (nthZ (ib_lay O) j) as [[b0 k0]|]; auto. destruct (b0 =? 0)%Z; auto. rewrite C0. apply Rplus_0_r. }
    destruct (p_refp P); cbn [andb]; [destruct (i =? 0)%Z; auto|]; apply V.
Qed.
End IB.

(** * Exact solvers *)
Lemma zsearch (f : Z -> bool) n : (0 <= n)%Z -> (exists i, (0 <= i < n)%Z /\ f i = true) \/ (forall i, (0 <= i < n)%Z -> f i = false).
Proof.
  intros _. destruct (existsb f (zrange 0 n)) eqn:E.
  - left. apply existsb_exists in E. destruct E as (i & Hi & Hf). apply zrange_In in Hi. eauto.
  - right. intros i Hi. destruct (f i) eqn:Ef; auto. rewrite <- E. symmetry. apply existsb_exists. exists i. split; auto. now apply zrange_In.
Qed.
(** A linear map from right-hand sides to solutions, for any matrix: columns are
    added one at a time. *)
Lemma general_inverse (n : Z) (A : mat) : (0 <= n)%Z -> forall k, (0 <= k)%Z ->
  exists M : mat, forall x i, (0 <= i < n)%Z -> mvec k A (mvec n M (mvec k A x)) i = mvec k A x i.
Proof.
  intros Hn k Hk. pattern k. apply (zind_up _ 0%Z); [| |exact Hk]; clear k Hk.
  - exists (fun _ _ => 0). intros. reflexivity.
  - intros k Hk (M & HM).
    assert (Sn : forall x i, mvec (k + 1) A x i = mvec k A x i + A i k * x k) by (intros; unfold mvec; now rewrite zsum_snoc').
    set (a := fun i => A i k). set (r := fun i => a i - mvec k A (mvec n M a) i).
    destruct (zsearch (fun i => negb (if Req_EM_T (r i) 0 then true else false)) n Hn) as [(i0 & Hi0 & Hr)|Hno].
    + assert (Hr0 : r i0 <> 0) by (destruct (Req_EM_T (r i0) 0); [discriminate|auto]). clear Hr.
      set (phi := fun j => ((if (i0 =? j)%Z then 1 else 0) - mmul k A M i0 j) / r i0).
      assert (Phi : forall b, zsum (fun j => phi j * b j) 0 n = (b i0 - mvec k A (mvec n M b) i0) / r i0).
      { intros b. unfold phi. rewrite <- mvec_mmul. unfold mvec, Rdiv.
        rewrite (zsum_ext _ (fun j => / r i0 * ((if (i0 =? j)%Z then 1 else 0) * b j) + (- / r i0) * (mmul k A M i0 j * b j))) by (intros; ring).
        unfold zsum. rewrite sumR_plus, !sumR_scal.
        assert (X : sumR (fun j => (if (i0 =? j)%Z then 1 else 0) * b j) (zrange 0 n) = b i0).
        { pose proof (mdiagonal_sum n (fun _ => 1) i0 (fun j _ => b j) 0%Z Hi0) as X. unfold mdiagonal, zsum in X. rewrite X. ring. }
        rewrite X. ring. }
      exists (fun l j => if (l =? k)%Z then phi j else M l j - mvec n M a l * phi j).
      intros x i Hi.
      set (b := mvec (k + 1) A x).
      set (f := zsum (fun j => phi j * b j) 0 n).
      assert (Hb : forall l, b l = mvec k A x l + a l * x k) by (intros; apply Sn).
      assert (Ab : forall v, (forall l, (0 <= l < n)%Z -> v l = b l) -> True) by auto. clear Ab.
      assert (AM : forall l, mvec k A (mvec n M b) l = mvec k A (mvec n M (mvec k A x)) l + x k * mvec k A (mvec n M a) l).
      { intros l. transitivity (mvec k A (vaxpy (mvec n M (mvec k A x)) (x k) (mvec n M a)) l); [|apply mvec_axpy].
        apply mvec_ext; auto. intros j _. transitivity (mvec n M (vaxpy (mvec k A x) (x k) a) j); [|apply mvec_axpy].
        apply mvec_ext; auto. intros j' _. rewrite Hb. unfold vaxpy. ring. }
      assert (Ef : f = x k).
      { unfold f. rewrite Phi, AM, (HM x i0 Hi0), Hb.
        replace (mvec k A x i0 + a i0 * x k - (mvec k A x i0 + x k * mvec k A (mvec n M a) i0)) with (x k * r i0) by (unfold r; ring). now field. }
      rewrite Sn.
      assert (E1 : mvec n (fun l j => if (l =? k)%Z then phi j else M l j - mvec n M a l * phi j) b k = x k).
      { unfold mvec at 1. rewrite (zsum_ext _ (fun j => phi j * b j)); [exact Ef|]. intros j _. now rewrite Z.eqb_refl. }
      assert (E2 : forall l, (0 <= l < k)%Z -> mvec n (fun l j => if (l =? k)%Z then phi j else M l j - mvec n M a l * phi j) b l
                                             = vaxpy (mvec n M b) (- x k) (mvec n M a) l).
      { intros l Hl. unfold mvec at 1. rewrite (zsum_ext _ (fun j => M l j * b j + - mvec n M a l * (phi j * b j))).
        - unfold zsum. rewrite sumR_plus, sumR_scal. fold (zsum (fun j => phi j * b j) 0 n). fold f. rewrite Ef. unfold vaxpy, mvec, zsum. ring.
        - intros j _. replace (l =? k)%Z with false by lia. ring. }
      rewrite E1. rewrite (mvec_ext k A A _ (vaxpy (mvec n M b) (- x k) (mvec n M a)) i); auto.
      rewrite mvec_axpy, AM, (HM x i Hi), Hb. fold (a i). ring.
    + assert (Hr : forall i, (0 <= i < n)%Z -> mvec k A (mvec n M a) i = a i).
      { intros i Hi. specialize (Hno i Hi). destruct (Req_EM_T (r i) 0) as [e|]; [unfold r in e; lra|discriminate]. }
      exists (fun l j => if (l =? k)%Z then 0 else M l j). intros x i Hi. rewrite Sn.
      set (b := mvec (k + 1) A x). assert (Hb : forall l, b l = mvec k A x l + a l * x k) by (intros; apply Sn).
      assert (E1 : mvec n (fun l j => if (l =? k)%Z then 0 else M l j) b k = 0).
      { unfold mvec. apply sumR_zero. intros. rewrite Z.eqb_refl. ring. }
      rewrite E1. rewrite (mvec_ext k A A _ (mvec n M b) i); auto.
      * assert (AM : mvec k A (mvec n M b) i = mvec k A (mvec n M (mvec k A x)) i + x k * mvec k A (mvec n M a) i).
        { transitivity (mvec k A (vaxpy (mvec n M (mvec k A x)) (x k) (mvec n M a)) i); [|apply mvec_axpy].
          apply mvec_ext; auto. intros j _. transitivity (mvec n M (vaxpy (mvec k A x) (x k) a) j); [|apply mvec_axpy].
          apply mvec_ext; auto. intros j' _. rewrite Hb. unfold vaxpy. ring. }
        rewrite AM, (HM x i Hi), (Hr i Hi), Hb. ring.
      * intros l Hl. unfold mvec. apply zsum_ext. intros j _. replace (l =? k)%Z with false by lia. reflexivity.
Qed.
Lemma exact_exists n A : (0 <= n)%Z -> exists solve, exact_solver n A solve.
Proof.
  intros Hn. destruct (general_inverse n A Hn n Hn) as (M & HM). exists (fun _ b => mvec n M b). intros g b (x & Hx) i Hi.
  rewrite <- (Hx i Hi). rewrite <- (HM x i Hi). apply mvec_ext; auto. intros l Hl. apply mvec_ext; auto. intros j Hj. symmetry. now apply Hx.
Qed.

(** * Runs *)
Lemma weighted_none h i : weighted [] h i = 0.
Proof. unfold weighted. apply sumR_zero. intros j _. destruct (nthZ [] j) as [c|] eqn:E; auto. apply nthZ_In in E. destruct E. Qed.
Lemma kinetic_nonneg m D x : mesh_setup m D -> 0 <= kinetic m D x.
Proof. intros H. unfold kinetic. pose proof (inner_nonneg m D H x). lra. Qed.
Lemma stored_bound n m D P O s : mesh_setup m D -> kinetic m D (s_U s) <= stored_energy n m D P O s.
Proof. intros H. unfold stored_energy. pose proof (kinetic_nonneg m D (mvec n (o_G O) (s_p s)) H). pose proof (Rle_0_sqr (p_dt P)). unfold Rsqr in *. nra. Qed.
Lemma decay m D types values h0 x c dt e1 e2 u z : mesh_setup m D -> bc_fits m types -> has_ics h0 -> periodic_min m 3 -> 0 <= c -> 0 < dt ->
  e2 = e1 - kinetic m D u + dt * (c * inner m D x (mvec (n_velocity m) (entry (op_log (op_of m D types values (lap_rows m D) h0))) x) + z) -> e2 <= e1 + dt * z.
Proof.
  intros Hs Hb Hi Hm Hc Hdt ->. pose proof (kinetic_nonneg m D u Hs). pose proof (lap_dissipates m D Hs types values h0 Hb Hi Hm x) as L.
  set (q := inner _ _ _ _) in *. assert (dt * (c * q) <= 0); [|nra]. assert (c * q <= 0) by nra. nra.
Qed.
Section NSRun.
Variables (m : mesh) (D : dec) (P : nspar) (types : Z -> Z -> bctype) (values : Z -> Z -> R) (t0 : R) (n0 : Z) (U0 p0 : vec) (O : nsops) (s0 : nsstate).
Hypotheses (Hset : mesh_setup m D) (Hb : bc_fits m types) (Hmin : periodic_min m 3) (Hneu : no_normal_neumann m types) (Hu : undriven m types values).
Hypotheses (Hbn : p_bn P = 1%Z) (Hdt : 0 < p_dt P) (Hc : 0 <= p_dimp P * p_nu P).
Hypothesis HI : ns_init m D P types values t0 n0 U0 p0 = Ok (O, s0).
Hypotheses (Hce : p_cexp P = []) (Hde : p_dexp P = []).
Variables (conv : boundary -> vec -> res vec) (vs ps : vec -> vec -> vec).
Hypotheses (Hv : exact_solver (n_velocity m) (o_A O) vs) (Hp : exact_solver (n_pressure m) (o_DBNG O) ps).
Lemma ns_decay k s s2 : ns_steps m D P O conv vs ps k s0 = Ok s -> advance m D P O conv vs ps s = Ok s2 ->
  stored_energy (n_pressure m) m D P O s2 <= stored_energy (n_pressure m) m D P O s.
Proof.
  intros Hk Ha. destruct (ns_budget m D P types values t0 n0 U0 p0 O s0 Hset Hb Hmin Hneu Hu Hbn Hdt Hc HI conv vs ps k s s2 Hv Hp Hk Ha) as (_ & rhs1 & s1 & _ & E).
  cbv zeta in E. rewrite Hce, Hde in E. destruct (ns_init_inv _ _ _ _ _ _ _ _ _ _ _ (setup_facts _ _ Hset) Hb HI) as (B & HB0 & EO & _).
  destruct (createOperators_inv _ _ _ _ _ EO) as (d & g & l & BN & _ & _ & El & _ & EOO).
  rewrite (createLaplacian_ok m D types values [OpICs U0] B (setup_facts _ _ Hset) Hb HB0) in El. injection El as <-.
  rewrite EOO in E at 3. cbn [o_L] in E. apply (decay m D types values) in E; auto; [|apply ics_one].
  assert (Z0 : inner m D (vs (s_U s) rhs1) (fun i => weighted [] (s_conv s2) i + weighted [] (s_diff s2) i) = 0).
  { unfold inner. apply sumR_zero. intros i _. rewrite !weighted_none. ring. }
  rewrite Z0 in E. lra.
Qed.
Lemma ns_decays k : forall s, ns_steps m D P O conv vs ps k s0 = Ok s ->
  stored_energy (n_pressure m) m D P O s <= stored_energy (n_pressure m) m D P O s0.
Proof.
  induction k as [|k IH]; intros s H; [injection H as <-; lra|]. cbn [ns_steps] in H. apply bind_ok_inv in H. destruct H as (s' & Hs & Ha).
  pose proof (ns_decay k s' s Hs Ha). specialize (IH s' Hs). lra.
Qed.
End NSRun.
Section IBRun.
Variables (m : mesh) (D : dec) (P : nspar) (types : Z -> Z -> bctype) (values : Z -> Z -> R) (name : string) (bodies : list (body * list (list R))).
Variables (t0 : R) (n0 : Z) (U0 p0 : vec) (O : ibops) (s0 : nsstate).
Hypotheses (Hset : mesh_setup m D) (Hb : bc_fits m types) (Hbo : bodies_ok m D bodies) (Hmin : periodic_min m 3) (Hneu : no_normal_neumann m types) (Hu : undriven m types values).
Hypotheses (Hbn : p_bn P = 1%Z) (Hdt : 0 < p_dt P) (Hc : 0 <= p_dimp P * p_nu P).
Hypothesis HI : ib_init m D P types values name bodies t0 n0 U0 p0 = Ok (O, s0).
Hypotheses (Hce : p_cexp P = []) (Hde : p_dexp P = []).
Variables (conv : boundary -> vec -> res vec) (vs ps : vec -> vec -> vec).
Hypotheses (Hv : exact_solver (n_velocity m) (o_A (ib_ns O)) vs) (Hp : exact_solver (ib_n O) (o_DBNG (ib_ns O)) ps).
Lemma ib_decay k s s2 : run_steps (ib_advance m D P O conv vs ps) k s0 = Ok s -> ib_advance m D P O conv vs ps s = Ok s2 ->
  stored_energy (ib_n O) m D P (ib_ns O) s2 <= stored_energy (ib_n O) m D P (ib_ns O) s.
Proof.
  intros Hk Ha. destruct (ib_budget m D P types values name bodies t0 n0 U0 p0 O s0 Hset Hb Hbo Hmin Hneu Hu Hbn Hdt Hc HI conv vs ps k s s2 Hv Hp Hk Ha) as (_ & rhs1 & s1 & _ & E).
  cbv zeta in E. rewrite Hce, Hde in E. destruct (ib_init_inv m D P types values name bodies Hset Hb _ _ _ _ _ _ HI) as (B & HB0 & EO & _).
  destruct (ib_createOperators_inv m D P name bodies _ _ EO) as (d & g & l & E' & H' & BN & _ & _ & El & _ & _ & EOO).
  rewrite (createLaplacian_ok m D types values [OpICs U0] B (setup_facts _ _ Hset) Hb HB0) in El. injection El as <-.
  assert (EL : o_L (ib_ns O) = op_of m D types values (lap_rows m D) [OpICs U0]) by (rewrite EOO; reflexivity).
  rewrite EL in E. apply (decay m D types values) in E; auto; [|apply ics_one].
  assert (Z0 : inner m D (vs (s_U s) rhs1) (fun i => weighted [] (s_conv s2) i + weighted [] (s_diff s2) i) = 0).
  { unfold inner. apply sumR_zero. intros i _. rewrite !weighted_none. ring. }
  rewrite Z0 in E. lra.
Qed.
Lemma ib_decays k : forall s, run_steps (ib_advance m D P O conv vs ps) k s0 = Ok s ->
  kinetic m D (s_U s) <= kinetic m D (s_U s0).
Proof.
  assert (X : forall s, run_steps (ib_advance m D P O conv vs ps) k s0 = Ok s -> stored_energy (ib_n O) m D P (ib_ns O) s <= stored_energy (ib_n O) m D P (ib_ns O) s0).
  { induction k as [|j IH]; intros s H; [injection H as <-; lra|]. cbn [run_steps] in H. apply bind_ok_inv in H. destruct H as (s' & Hs & Ha).
    pose proof (ib_decay j s' s Hs Ha). specialize (IH s' Hs). lra. }
  intros s H. specialize (X s H). pose proof (stored_bound (ib_n O) m D P (ib_ns O) s Hset).
  assert (E0 : stored_energy (ib_n O) m D P (ib_ns O) s0 = kinetic m D (s_U s0)).
  { destruct (ib_init_inv m D P types values name bodies Hset Hb _ _ _ _ _ _ HI) as (B & _ & _ & ->). unfold stored_energy. cbn [s_U s_p].
    assert (Z0 : kinetic m D (mvec (ib_n O) (o_G (ib_ns O)) (fun _ => 0)) = 0); [|rewrite Z0; ring].
    unfold kinetic, inner. replace (zsum _ 0 (n_velocity m)) with 0; [unfold Rdiv; ring|]. symmetry. apply sumR_zero. intros i _.
    assert (Z1 : mvec (ib_n O) (o_G (ib_ns O)) (fun _ => 0) i = 0) by (apply sumR_zero; intros; ring). rewrite Z1. ring. }
  lra.
Qed.
End IBRun.
