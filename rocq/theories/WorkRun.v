(** The energy of runs with explicit convection, and a flow into which the
    operator feeds energy. *)
From Coq Require Import Lia ZifyBool String List Lra.
Import ListNotations.
From Verif Require Import Prelude ZSum RSum TypesModel GridModel GridSpec GridProof MeshProof
  IndexModel IndexSpec IndexProof BoundaryModel BoundarySpec BoundaryProof OperatorModel OperatorSpec OperatorProof BStateProof LapProof DivProof GradProof
  AdjProof MatModel NSModel NSSpec NSProof NSProps SymProof NSPin ConvModel ConvSpec ConvProof ConvValue ConvTotal ConvProps DeltaSpec DecSpec DecConv EnergySpec EnergyProof EnergyRun ExampleSetup WorkProof.
Local Open Scope R_scope.

Lemma undriven_impermeable m types values : bc_fits m types -> no_normal_neumann m types -> undriven m types values -> impermeable m types values.
Proof.
  intros Hb Hn Hu f loc Hf Hl Hlf Hp. destruct (Hu f loc Hf Hl) as [Hc Hv].
  assert (Np : types f loc <> PERIODIC).
  { intros E. pose proof (Hb f loc Hf Hl) as X. unfold loc_dir in X. rewrite Hlf, Hp in X. destruct X as [_ [X _]]. specialize (X E). discriminate. }
  split; [|auto]. pose proof (proj1 (Hb f loc Hf Hl)) as Nb. destruct (Hn f Hf) as [N0 N1].
  assert (loc = 2 * f \/ loc = 2 * f + 1)%Z as E by (pose proof (Z.div_mod loc 2 ltac:(lia)); pose proof (Z.mod_pos_bound loc 2 ltac:(lia)); lia).
  destruct (types f loc) eqn:Et; auto; try contradiction; destruct E as [-> | ->]; congruence.
Qed.

Lemma inner_neg m D x y : inner m D x (fun i => - y i) = - inner m D x y.
Proof. unfold inner. rewrite (zsum_ext _ (fun i => -1 * (volume m D i * (x i * y i)))) by (intros; ring). rewrite zs_scal. ring. Qed.
Lemma complete_square m D u1 u y dt : mesh_setup m D -> inner m D u y = 0 ->
  - kinetic m D (fun i => u1 i - u i) - dt * inner m D u1 y <= dt * dt * kinetic m D y.
Proof.
  intros Hs H0.
  assert (E : kinetic m D (fun i => (u1 i - u i) + dt * y i) = kinetic m D (fun i => u1 i - u i) + dt * (inner m D u1 y - inner m D u y) + dt * dt * kinetic m D y).
  { unfold kinetic, inner. rewrite (zsum_ext _ (fun i => volume m D i * ((u1 i - u i) * (u1 i - u i)) + (2 * dt * (volume m D i * (u1 i * y i)) + (-2 * dt * (volume m D i * (u i * y i)) + dt * dt * (volume m D i * (y i * y i)))))) by (intros; ring).
    rewrite !zs_plus, !zs_scal. field. }
  pose proof (kinetic_nonneg m D (fun i => (u1 i - u i) + dt * y i) Hs) as K. rewrite H0 in E. rewrite E in K. lra.
Qed.

Section Run.
Variables (m : mesh) (D : dec) (P : nspar) (types : Z -> Z -> bctype) (values : Z -> Z -> R) (h : Z -> R) (t0 : R) (n0 : Z) (U0 p0 : vec) (O : nsops) (s0 : nsstate).
Hypotheses (Hset : mesh_setup m D) (Hb : bc_fits m types) (Hmin : periodic_min m 3) (Hneu : no_normal_neumann m types) (Hu : undriven m types values) (Huni : uniform m h).
Hypotheses (Hbn : p_bn P = 1%Z) (Hdt : 0 < p_dt P) (Hc : 0 <= p_dimp P * p_nu P).
Hypothesis HI : ns_init m D P types values t0 n0 U0 p0 = Ok (O, s0).
Variables (vs ps : vec -> vec -> vec) (conv : boundary -> vec -> res vec).
Hypotheses (Hv : exact_solver (n_velocity m) (o_A O) vs) (Hp : exact_solver (n_pressure m) (o_DBNG O) ps).
Let F : mfacts m D := setup_facts _ _ Hset.

Lemma run_flux k s u : ns_steps m D P O conv vs ps (S k) s0 = Ok s -> extends m D (s_bc s) (s_U s) u ->
  forall p, interior (m_n m 3) p -> net_flux m false u p = 0.
Proof.
  intros Hk HX p Hin. cbn [ns_steps] in Hk. apply bind_ok_inv in Hk. destruct Hk as (s' & Hs' & Ha).
  destruct (ns_budget m D P types values t0 n0 U0 p0 O s0 Hset Hb Hmin Hneu Hu Hbn Hdt Hc HI conv vs ps k s' s Hv Hp Hs' Ha) as (Hdiv & _).
  destruct (steps_boundary _ _ _ _ _ _ _ _ _ _ _ _ _ _ _ _ F Hb HI Hs') as (h1 & Hh).
  destruct (ns_init_inv _ _ _ _ _ _ _ _ _ _ _ F Hb HI) as (B0 & HB0 & EO & _).
  destruct (createOperators_inv _ _ _ _ _ EO) as (d & g & l & BN & Ed & Eg & El & EB & EOO).
  destruct (advance_inv _ _ _ _ _ _ _ _ _ Ha) as (rhs1' & s1' & b' & X1 & X2 & XB1 & XdP & XU & _ & XB2 & _).
  pose proof (bc_call_inv m D types values _ _ _ _ F Hb Hh XB1) as HB1. pose proof (bc_call_inv m D types values _ _ _ _ F Hb HB1 XB2) as HB2.
  rewrite <- app_assoc in HB1. rewrite <- !app_assoc in HB2.
  destruct (divergence_lemma m D types values false [OpICs U0] (h1 ++ [OpEqs (s_U s') (p_dt P)]) (s_U s) B0 (s_bc s1') (s_bc s) u F Hb (ics_one U0) (min_three_two m Hmin) HB0 HB1) as (op & c & Eop & Ec & Hd); auto.
  { rewrite <- !app_assoc. exact HB2. }
  rewrite Ed in Eop. injection Eop as <-. destruct (pidx_spec m D p F Hin) as [_ Np]. rewrite <- (Hd _ _ Np).
  rewrite (createDivergence_ok m D types values false [OpICs U0] B0 F Hb HB0) in Ed. injection Ed as <-.
  rewrite (undriven_correction m D types values F Hb Hu _ _ _ _ _ (ics_one U0) HB1 Ec).
  pose proof (Hdiv (idx m D 3 p) (pidx_range m D p F Hin)) as Z0. rewrite EOO in Z0. cbn [o_D] in Z0.
  unfold mvec in Z0. unfold mat_mult. rewrite Z0. ring.
Qed.
End Run.

Lemma run_work m D P types values h t0 n0 U0 p0 O s0 vs ps conv k s y : mesh_setup m D -> bc_fits m types -> periodic_min m 3 -> no_normal_neumann m types -> undriven m types values -> uniform m h ->
  p_bn P = 1%Z -> 0 < p_dt P -> 0 <= p_dimp P * p_nu P ->
  ns_init m D P types values t0 n0 U0 p0 = Ok (O, s0) ->
  exact_solver (n_velocity m) (o_A O) vs -> exact_solver (n_pressure m) (o_DBNG O) ps ->
  ns_steps m D P O conv vs ps (S k) s0 = Ok s -> convection m D (s_bc s) (s_U s) = Ok y -> inner m D (s_U s) y = 0.
Proof.
  intros Hs Hb Hm Hn Hu Hh Hbn Hdt Hc HI Hv Hp Hk Hy. pose proof (setup_facts _ _ Hs) as F. destruct (convection_inv _ _ _ _ _ Hy) as (C' & E).
  destruct (steps_boundary _ _ _ _ _ _ _ _ _ _ _ _ _ _ _ _ F Hb HI Hk) as (h1 & HB).
  destruct (extends_box_exists m D types values _ _ (s_U s) F Hb HB) as (u & HX & _).
  eapply (no_work m D types values _ ([OpICs U0] ++ h1) (s_bc s) (s_U s) u y C' h); eauto using cs_new, undriven_impermeable.
  - exists U0. now left.
  - eapply run_flux; eauto.
Qed.

Lemma run_growth m D P types values h t0 n0 U0 p0 O s0 vs ps k s s2 y : mesh_setup m D -> bc_fits m types -> periodic_min m 3 -> no_normal_neumann m types -> undriven m types values -> uniform m h ->
  p_bn P = 1%Z -> 0 < p_dt P -> 0 <= p_dimp P * p_nu P -> p_cexp P = [1] -> p_dexp P = [] ->
  ns_init m D P types values t0 n0 U0 p0 = Ok (O, s0) ->
  exact_solver (n_velocity m) (o_A O) vs -> exact_solver (n_pressure m) (o_DBNG O) ps ->
  ns_steps m D P O (convection m D) vs ps (S k) s0 = Ok s -> advance m D P O (convection m D) vs ps s = Ok s2 -> convection m D (s_bc s) (s_U s) = Ok y ->
  stored_energy (n_pressure m) m D P O s2 <= stored_energy (n_pressure m) m D P O s + p_dt P * p_dt P * kinetic m D y.
Proof.
  intros Hs Hb Hm Hn Hu Hh Hbn Hdt Hc Hce Hde HI Hv Hp Hk Ha Hy. pose proof (setup_facts _ _ Hs) as F.
  pose proof (run_work m D P types values h t0 n0 U0 p0 O s0 vs ps (convection m D) k s y Hs Hb Hm Hn Hu Hh Hbn Hdt Hc HI Hv Hp Hk Hy) as W.
  destruct (ns_budget m D P types values t0 n0 U0 p0 O s0 Hs Hb Hm Hn Hu Hbn Hdt Hc HI (convection m D) vs ps (S k) s s2 Hv Hp Hk Ha) as (_ & rhs1 & s1 & _ & E).
  cbv zeta in E. rewrite Hce, Hde in E.
  assert (Hk2 : ns_steps m D P O (convection m D) vs ps (S (S k)) s0 = Ok s2) by (cbn [ns_steps] in Hk |- *; rewrite Hk; exact Ha).
  destruct (explicit_history m D P types values t0 n0 U0 p0 O s0 (convection m D) vs ps (S (S k)) s2 Hs Hb HI Hk2) as ((L1 & H1) & _).
  rewrite Hce in L1, H1. specialize (H1 0%Z ltac:(cbn; lia)). replace (0 <? Z.of_nat (S (S k)))%Z with true in H1 by lia.
  destruct H1 as (s' & v & Hs' & Hv' & Hn'). replace (Z.to_nat (Z.of_nat (S (S k)) - 1 - 0)) with (S k) in Hs' by lia. rewrite Hk in Hs'. injection Hs' as <-.
  unfold convection_term in Hv'. rewrite Hy in Hv'. cbn [bind] in Hv'. injection Hv' as <-.
  assert (Hcv : s_conv s2 = [vscale (-1) y]).
  { destruct (s_conv s2) as [|a [|b t]]; cbn in L1, Hn'; try discriminate; try (unfold lenZ in L1; cbn in L1; lia). injection Hn' as ->. reflexivity. }
  destruct (ns_init_inv _ _ _ _ _ _ _ _ _ _ _ F Hb HI) as (B & HB0 & EO & _).
  destruct (createOperators_inv _ _ _ _ _ EO) as (d & g & l & BN & _ & _ & El & _ & EOO).
  rewrite (createLaplacian_ok m D types values [OpICs U0] B F Hb HB0) in El. injection El as <-.
  set (u1 := vs (s_U s) rhs1) in *.
  assert (Ez : inner m D u1 (fun i => weighted [1] (s_conv s2) i + weighted [] (s_diff s2) i) = - inner m D u1 y).
  { rewrite <- inner_neg. unfold inner. apply zsum_ext. intros i _. rewrite weighted_none, Hcv. unfold weighted, zsum. change (zrange 0 (lenZ [vscale (-1) y])) with [0%Z]. change (nthZ [1] 0) with (Some 1). change (nthZ [vscale (-1) y] 0) with (Some (vscale (-1) y)). unfold vscale. cbn [sumR map fold_right]. cbn. ring. }
  rewrite Ez in E. rewrite EOO in E at 3. cbn [o_L] in E.
  pose proof (lap_dissipates m D Hs types values [OpICs U0] Hb (ics_one U0) Hm u1) as L.
  pose proof (complete_square m D u1 (s_U s) y (p_dt P) Hs W) as Q.
  set (q := inner m D u1 (mvec _ _ _)) in *. assert (p_dimp P * p_nu P * q <= 0) by nra. nra.
Qed.
