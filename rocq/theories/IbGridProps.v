(** C79. The run of an immersed-boundary solver does not depend on the process
    grid: with cells of equal size around the bodies and a flow that does
    not cross the boundaries, two runs from the same data on two process grids,
    with two distributions of the points of the bodies and two sets of exact
    linear solvers, produce the same flow and the same forces. *)
From Coq Require Import Lia ZifyBool String List.
Import ListNotations.
From Verif Require Import Prelude ZSum RSum TypesModel GridModel GridSpec GridProof GridProps MeshProof
  IndexModel IndexSpec IndexProof BoundaryModel BoundarySpec BoundaryProof OperatorModel OperatorSpec OperatorProof BStateProof LapProof DivProof GradProof
  AdjProof SymProof MatModel BnModel NSModel NSSpec NSProof NSPin BnSpec BnProof LinAlg UniqueProof ConvModel ConvSpec EnergySpec EnergyProof EnergyRun
  BodyModel BodySpec BodyProof BodyProps DeltaModel DeltaSpec DeltaKernel DeltaProof DeltaSum DeltaProps IbpmModel IbpmSpec IbpmProof IbpmStep IbpmDec IbpmMove IbpmProps MoveProps
  RestartProof DecSpec DecProof DecConv IbOutSpec IbOutBalance IbOutProps IndepSpec IndepProof IndepRun ExampleSetup IndepCase IndepProps IbGridSpec IbGridProof IbGridRun.
Local Open Scope R_scope.

Lemma flow_of m D1 D2 types values U1 U2 s1 s2 : mesh_setup m D1 -> mesh_setup m D2 -> flow_rel m D1 D2 types values U1 U2 s1 s2 -> same_flow_on m D1 D2 s1 s2.
Proof.
  intros Hs1 Hs2 (A & B & C & E & F & _). pose proof (vv_same m D1 D2 Hs1 Hs2) as V.
  split; [exact A|]. split; [exact B|]. split; [now apply V|]. split; [revert E|revert F]; (induction 1; constructor; auto; now apply V).
Qed.
(** The coupled solver starts from the data of the Navier-Stokes solver. *)
Lemma ib_init_ns m D P types values name bs t0 n0 U p O s q : ib_init m D P types values name bs t0 n0 U p = Ok (O, s) -> exists ops a, ns_init m D P types values t0 n0 U q = Ok (ops, a).
Proof.
  intros HC. unfold ib_init in HC. apply bind_ok_inv in HC. destruct HC as (bl & Ebl & HC). apply bind_ok_inv in HC. destruct HC as (B & EB & HC). apply bind_ok_inv in HC. destruct HC as (o & Eo & _).
  destruct (ib_createOperators_inv m D P name bs _ _ Eo) as (d & g & l & E & H & BN & Ed & Eg & El & _ & EBN & _).
  unfold ns_init. rewrite Ebl. cbn [bind]. rewrite EB. cbn [bind]. unfold createOperators. rewrite Ed. cbn [bind]. rewrite Eg. cbn [bind]. rewrite El. cbn [bind]. rewrite EBN. cbn [bind]. eauto.
Qed.

(** The coupled solver: the same velocity, the same history, and the same
    pressure gradient less the spread forces. *)
Theorem coupled_run_independent_of_grid : forall m D1 D2 P types values name bs1 bs2 h K w t0 n0 U1 U2 p1 p2 O1 O2 a1 a2 vs1 ps1 vs2 ps2 k s1 s2,
  mesh_setup m D1 -> mesh_setup m D2 -> bc_fits m types -> bodies_ok m D1 bs1 -> bodies_ok m D2 bs2 -> same_points bs1 bs2 ->
  uniform_around m h w bs1 -> getKernel name = Ok (K, w) -> wide_enough m w -> periodic_min m 3 -> impermeable m types values ->
  p_bn P = 1%Z -> 0 < p_dt P -> 0 <= p_dimp P * p_nu P -> same_velocity m D1 D2 U1 U2 ->
  ib_init m D1 P types values name bs1 t0 n0 U1 p1 = Ok (O1, a1) -> ib_init m D2 P types values name bs2 t0 n0 U2 p2 = Ok (O2, a2) ->
  let step1 := ib_advance m D1 P O1 (convection m D1) vs1 ps1 in let step2 := ib_advance m D2 P O2 (convection m D2) vs2 ps2 in
  along step1 (coupled_exact_step m D1 P O1 (convection m D1) vs1 ps1) a1 k -> along step2 (coupled_exact_step m D2 P O2 (convection m D2) vs2 ps2) a2 k ->
  run_steps step1 k a1 = Ok s1 -> run_steps step2 k a2 = Ok s2 ->
  same_flow_on m D1 D2 s1 s2 /\
  same_velocity m D1 D2 (mvec (ib_n O1) (o_G (ib_ns O1)) (s_p s1)) (mvec (ib_n O2) (o_G (ib_ns O2)) (s_p s2)).
Proof.
  intros m D1 D2 P types values name bs1 bs2 h K w t0 n0 U1 U2 p1 p2 O1 O2 a1 a2 vs1 ps1 vs2 ps2 k s1 s2 Hs1 Hs2 Hb Hbo1 Hbo2 Hsm Hu HK Hw Hm Hi Hbn Hdt Hc HU HC1 HC2 step1 step2 A1 A2 E1 E2.
  destruct (ib_init_ns _ _ _ _ _ _ _ _ _ _ _ _ _ (fun _ => 0) HC1) as (ops1 & b1 & HI1). destruct (ib_init_ns _ _ _ _ _ _ _ _ _ _ _ _ _ (fun _ => 0) HC2) as (ops2 & b2 & HI2).
  destruct (cgrun m D1 D2 types values Hs1 Hs2 Hb Hm (impermeable_neumann m _ _ Hb Hi) P t0 n0 U1 U2 _ _ ops1 ops2 b1 b2 HI1 HI2 HU Hc Hdt Hbn (convection m D1) (convection m D2)
    (conv_agree_impermeable m D1 D2 types values Hs1 Hs2 Hb Hi) name bs1 bs2 O1 O2 p1 p2 a1 a2 Hbo1 Hbo2 Hsm HC1 HC2) with (vs1 := vs1) (vs2 := vs2) (ps1 := ps1) (ps2 := ps2) (k := k) (s1 := s1) (s2 := s2) as [X Y]; auto.
  { intros. eapply spread_rel; eauto. }
  split; [now apply (flow_of m D1 D2 types values U1 U2)|now apply (vv_same m D1 D2 Hs1 Hs2)].
Qed.
Print Assumptions coupled_run_independent_of_grid.

(** The decoupled solver: the same flow, the same pressure (up to a constant if
    it is not pinned), the same spread forces; the same forces at every point if
    the forces are felt. *)
Theorem decoupled_run_independent_of_grid : forall m D1 D2 P types values name bs1 bs2 h K w t0 n0 U1 U2 p1 p2 O1 O2 X1 X2 a1 a2 vs1 ps1 fs1 vs2 ps2 fs2 k x1 x2,
  mesh_setup m D1 -> mesh_setup m D2 -> bc_fits m types -> bodies_ok m D1 bs1 -> bodies_ok m D2 bs2 -> same_points bs1 bs2 ->
  uniform_around m h w bs1 -> getKernel name = Ok (K, w) -> wide_enough m w -> periodic_min m 3 -> impermeable m types values ->
  p_bn P = 1%Z -> 0 < p_dt P -> 0 <= p_dimp P * p_nu P -> same_velocity m D1 D2 U1 U2 -> same_pressure D1 D2 p1 p2 ->
  d_init m D1 P types values name bs1 t0 n0 U1 p1 = Ok (O1, X1, a1) -> d_init m D2 P types values name bs2 t0 n0 U2 p2 = Ok (O2, X2, a2) ->
  let nf1 := n_forces m bs1 in let nf2 := n_forces m bs2 in let rf1 := d_assembleRHSForces m X1 in let rf2 := d_assembleRHSForces m X2 in
  let step1 := d_advance m D1 P O1 X1 nf1 (convection m D1) rf1 vs1 ps1 fs1 in let step2 := d_advance m D2 P O2 X2 nf2 (convection m D2) rf2 vs2 ps2 fs2 in
  along step1 (decoupled_exact_step m D1 P O1 X1 nf1 (convection m D1) rf1 vs1 ps1 fs1) a1 k -> along step2 (decoupled_exact_step m D2 P O2 X2 nf2 (convection m D2) rf2 vs2 ps2 fs2) a2 k ->
  run_steps step1 k a1 = Ok x1 -> run_steps step2 k a2 = Ok x2 ->
  same_flow_on m D1 D2 (x_ns x1) (x_ns x2) /\
  (if p_refp P then same_pressure D1 D2 (s_p (x_ns x1)) (s_p (x_ns x2)) else same_pressure_up_to_constant D1 D2 (s_p (x_ns x1)) (s_p (x_ns x2))) /\
  same_velocity m D1 D2 (mvec nf1 (di_H X1) (x_f x1)) (mvec nf2 (di_H X2) (x_f x2)) /\
  (forces_felt m nf1 X1 -> same_forces m D1 D2 bs1 bs2 (x_f x1) (x_f x2)).
Proof.
  intros m D1 D2 P types values name bs1 bs2 h K w t0 n0 U1 U2 p1 p2 O1 O2 X1 X2 a1 a2 vs1 ps1 fs1 vs2 ps2 fs2 k x1 x2 Hs1 Hs2 Hb Hbo1 Hbo2 Hsm Hu HK Hw Hm Hi Hbn Hdt Hc HU Hp HC1 HC2 nf1 nf2 rf1 rf2 step1 step2 A1 A2 E1 E2.
  assert (En : nf2 = nf1) by (symmetry; exact (forces_same m D1 D2 bs1 bs2 Hbo1 Hbo2 Hsm)). unfold step2 in *. clear step2. rewrite En in *. clear nf2 En.
  destruct (d_init_inv m D1 P types values Hs1 Hb _ _ _ _ _ _ _ _ _ HC1) as (B1 & HB1 & _ & EX1 & _). destruct (d_init_inv m D2 P types values Hs2 Hb _ _ _ _ _ _ _ _ _ HC2) as (B2 & HB2 & _ & EX2 & _).
  unfold d_init in HC1, HC2. apply bind_ok_inv in HC1. destruct HC1 as ([O1' b1] & HI1 & HC1). apply bind_ok_inv in HC1. destruct HC1 as (X1' & _ & HC1). injection HC1 as -> -> <-.
  apply bind_ok_inv in HC2. destruct HC2 as ([O2' b2] & HI2 & HC2). apply bind_ok_inv in HC2. destruct HC2 as (X2' & _ & HC2). injection HC2 as -> -> <-.
  assert (RH : mrel (SV m) (iv m D1) (iv m D2) (SF m bs1) (jf m D1 bs1) (jf m D2 bs2) (di_H X1) (di_H X2)).
  { destruct (extra_inv m D1 P _ _ _ _ _ EX1) as (Ea & Ha & BNa & EIa & _ & Qa). destruct (extra_inv m D2 P _ _ _ _ _ EX2) as (Eb & Hbb & BNb & EIb & _ & Qb).
    rewrite Qa, Qb. cbn [di_H]. eapply spread_rel; eauto. }
  pose proof (impermeable_neumann m _ _ Hb Hi) as Hnn.
  assert (Hrf : forall u1 u2, vv m D1 D2 u1 u2 -> ff m D1 D2 bs1 bs2 (rf1 u1) (rf2 u2)).
  { intros u1 u2 Hv. destruct (extra_rel m D1 D2 types values Hs1 Hs2 Hb Hm Hnn P t0 n0 U1 U2 _ _ O1 O2 b1 b2 HI1 HI2 Hbn name _ _ _ _ _ _ EX1 EX2 RH) as (RE & _).
    pose proof (mr_mvec _ _ _ _ _ _ _ _ _ _ _ _ _ (numV m D1 (setup_facts _ _ Hs1)) (numV m D2 (setup_facts _ _ Hs2)) RE Hv) as VE.
    intros u Su. unfold rf1, rf2, d_assembleRHSForces, vscale. now rewrite (VE u Su). }
  destruct (dgrun m D1 D2 types values Hs1 Hs2 Hb Hm Hnn P t0 n0 U1 U2 _ _ O1 O2 b1 b2 HI1 HI2 HU Hc Hdt Hbn (convection m D1) (convection m D2)
    (conv_agree_impermeable m D1 D2 types values Hs1 Hs2 Hb Hi) name bs1 bs2 X1 X2 _ _ Hbo1 Hbo2 Hsm EX1 EX2 RH rf1 rf2 vs1 vs2 ps1 ps2 fs1 fs2 Hrf k Hp x1 x2 A1 A2 E1 E2) as [[X (a & Ha & Y)] Z0].
  split; [now apply (flow_of m D1 D2 types values U1 U2)|]. split; [|split].
  - destruct (p_refp P); [rewrite (Ha eq_refl) in Y; apply (pp_same m D1 D2 Hs1 Hs2); intros q Sq; rewrite (Y q Sq); ring|exists a; now apply (pp_same m D1 D2 Hs1 Hs2)].
  - now apply (vv_same m D1 D2 Hs1 Hs2).
  - intros Hff. apply (ff_same m D1 D2 bs1 bs2 Hbo1 Hbo2 Hsm). exact (felt_rel m D1 D2 Hs1 bs1 bs2 X1 X2 Hbo1 Hbo2 Hsm RH _ _ Hff Z0).
Qed.
Print Assumptions decoupled_run_independent_of_grid.

(** Moving bodies, as long as the forces are felt at every step: the bodies are
    at the same places too. *)
Theorem moving_run_independent_of_grid : forall m D1 D2 P types values name bs1 bs2 mo1 mo2 pos vel h K w t0 n0 U1 U2 p1 p2 O1 O2 a1 a2 vs1 ps1 fs1 vs2 ps2 fs2 k s1 s2,
  mesh_setup m D1 -> mesh_setup m D2 -> bc_fits m types -> bodies_ok m D1 bs1 -> bodies_ok m D2 bs2 -> same_points bs1 bs2 ->
  prescribed m D1 bs1 mo1 pos vel -> prescribed m D2 bs2 mo2 pos vel ->
  (forall t, uniform_around m h w (bodies_at bs1 (pos t))) -> getKernel name = Ok (K, w) -> wide_enough m w -> periodic_min m 3 -> impermeable m types values ->
  p_bn P = 1%Z -> 0 < p_dt P -> 0 <= p_dimp P * p_nu P -> same_velocity m D1 D2 U1 U2 -> same_pressure D1 D2 p1 p2 ->
  r_init m D1 P types values name bs1 t0 n0 U1 p1 = Ok (O1, a1) -> r_init m D2 P types values name bs2 t0 n0 U2 p2 = Ok (O2, a2) ->
  (forall j B X, (1 <= j <= k)%nat -> (exists hist, boundary_after m D1 types values hist B) ->
     createExtraOperators m D1 B P O1 name (bodies_at bs1 (pos (t0 + INR j * p_dt P))) = Ok X -> forces_felt m (n_forces m bs1) X) ->
  let step1 := r_advance m D1 P O1 name mo1 (convection m D1) vs1 ps1 fs1 in let step2 := r_advance m D2 P O2 name mo2 (convection m D2) vs2 ps2 fs2 in
  along step1 (moving_exact_step m D1 P O1 name mo1 (convection m D1) vs1 ps1 fs1) a1 k -> along step2 (moving_exact_step m D2 P O2 name mo2 (convection m D2) vs2 ps2 fs2) a2 k ->
  run_steps step1 k a1 = Ok s1 -> run_steps step2 k a2 = Ok s2 ->
  same_flow_on m D1 D2 (x_ns (r_x s1)) (x_ns (r_x s2)) /\
  (if p_refp P then same_pressure D1 D2 (s_p (x_ns (r_x s1))) (s_p (x_ns (r_x s2))) else same_pressure_up_to_constant D1 D2 (s_p (x_ns (r_x s1))) (s_p (x_ns (r_x s2)))) /\
  same_forces m D1 D2 bs1 bs2 (x_f (r_x s1)) (x_f (r_x s2)) /\ same_points (r_bodies s1) (r_bodies s2).
Proof.
  intros m D1 D2 P types values name bs1 bs2 mo1 mo2 pos vel h K w t0 n0 U1 U2 p1 p2 O1 O2 a1 a2 vs1 ps1 fs1 vs2 ps2 fs2 k s1 s2 Hs1 Hs2 Hb Hbo1 Hbo2 Hsm Hmo1 Hmo2 Hu HK Hw Hm Hi Hbn Hdt Hc HU Hp HC1 HC2 Hff step1 step2 A1 A2 E1 E2.
  assert (Q : forall D bs O U p a, mesh_setup m D -> r_init m D P types values name bs t0 n0 U p = Ok (O, a) -> exists b, ns_init m D P types values t0 n0 U p = Ok (O, b)).
  { intros D bs O U p a Hs HC. destruct (r_init_inv m D P types values Hs Hb name bs _ _ _ _ _ _ HC) as (B & X & x0 & _ & _ & ED & _).
    unfold d_init in ED. apply bind_ok_inv in ED. destruct ED as ([O' b] & HN & ED). apply bind_ok_inv in ED. destruct ED as (X' & _ & ED). injection ED as -> _ _. eauto. }
  destruct (Q _ _ _ _ _ _ Hs1 HC1) as (b1 & HI1). destruct (Q _ _ _ _ _ _ Hs2 HC2) as (b2 & HI2).
  destruct (rgrun m D1 D2 types values Hs1 Hs2 Hb Hm (impermeable_neumann m _ _ Hb Hi) P t0 n0 U1 U2 _ _ O1 O2 b1 b2 HI1 HI2 HU Hc Hdt Hbn (convection m D1) (convection m D2)
    (conv_agree_impermeable m D1 D2 types values Hs1 Hs2 Hb Hi) name bs1 bs2 mo1 mo2 pos vel a1 a2 Hbo1 Hbo2 Hsm Hmo1 Hmo2 HC1 HC2 Hp vs1 vs2 ps1 ps2 fs1 fs2) with (k := k) (s1 := s1) (s2 := s2) as ([X (a & Ha & Y)] & VF & VB); auto.
  { intros t B1 B2 h1 h2 Ea Ha Eb Hbb. intros. refine (spread_rel m D1 D2 types values Hs1 Hs2 Hb h name K w _ _ B1 B2 h1 h2 Ea Ha Eb Hbb (Hu t) HK Hw (ok_at _ _ _ _ Hbo1 (proj1 (Hmo1 t))) (ok_at _ _ _ _ Hbo2 (proj1 (Hmo2 t))) _ _ _ _ _); auto.
    unfold same_points. rewrite !at_snd; auto; [exact (shape_len _ _ (proj1 (Hmo2 t)))|exact (shape_len _ _ (proj1 (Hmo1 t)))]. }
  split; [now apply (flow_of m D1 D2 types values U1 U2)|]. split; [|split; [exact VF|exact VB]].
  destruct (p_refp P); [rewrite (Ha eq_refl) in Y; apply (pp_same m D1 D2 Hs1 Hs2); intros q Sq; rewrite (Y q Sq); ring|exists a; now apply (pp_same m D1 D2 Hs1 Hs2)].
Qed.
Print Assumptions moving_run_independent_of_grid.

(** The same forces make the same line of the forces file. *)
Theorem forces_line_independent_of_grid : forall m D1 D2 bs1 bs2 f1 f2 t l1 l2,
  bodies_ok m D1 bs1 -> bodies_ok m D2 bs2 -> same_points bs1 bs2 -> same_forces m D1 D2 bs1 bs2 f1 f2 ->
  reported m D1 bs1 t f1 l1 -> reported m D2 bs2 t f2 l2 -> l1 = l2.
Proof.
  intros m D1 D2 bs1 bs2 f1 f2 t l1 l2 Hbo1 Hbo2 Hsm Hf (g1 & G1 & ->) (g2 & G2 & ->). f_equal.
  assert (Ln : lenZ bs1 = lenZ bs2) by (rewrite <- (lenZ_map snd bs1), <- (lenZ_map snd bs2); now rewrite Hsm).
  rewrite <- Ln. rewrite !flat_map_concat_map. f_equal. apply map_ext_in. intros b Hin. apply zrange_In in Hin.
  destruct (nthZ_in_range bs1 b Hin) as (bc1 & Eb1). rewrite Ln in Hin. destruct (nthZ_in_range bs2 b Hin) as (bc2 & Eb2). rewrite Eb1, Eb2.
  assert (Es : snd bc1 = snd bc2). { assert (Em : nthZ (map snd bs1) b = nthZ (map snd bs2) b) by now rewrite Hsm. rewrite !nthZ_map, Eb1, Eb2 in Em. now injection Em. }
  pose proof (proj1 (proj1 (Forall_forall _ _) (proj2 Hbo1) bc1 (nthZ_In _ _ _ Eb1))) as L1. pose proof (proj1 (proj1 (Forall_forall _ _) (proj2 Hbo2) bc2 (nthZ_In _ _ _ Eb2))) as L2.
  rewrite <- L1, <- L2, <- Es. apply map_ext_in. intros c Hc. apply zrange_In in Hc. f_equal. apply zsum_ext. intros i Hi.
  destruct (nthZ_in_range (snd bc1) i Hi) as (X & EX).
  assert (S1 : located bs1 b i X) by (exists bc1; auto). pose proof (proj1 (located_same bs1 bs2 Hsm b i X) S1) as S2.
  pose proof (jf_row m D1 bs1 b i c X Hbo1 S1 Hc) as N1. pose proof (jf_row m D2 bs2 b i c X Hbo2 S2 Hc) as N2.
  rewrite <- (G1 _ _ _ _ N1), <- (G2 _ _ _ _ N2). exact (Hf _ _ _ N1 N2).
Qed.
Print Assumptions forces_line_independent_of_grid.

(** Even when single forces are not determined, the total force in the forces
    file does not depend on the grid. *)
Theorem decoupled_total_force_independent_of_grid : forall m D1 D2 P types values name bs1 bs2 h K w t0 n0 U1 U2 p1 p2 O1 O2 X1 X2 a1 a2 vs1 ps1 fs1 vs2 ps2 fs2 k x1 x2 t l1 l2 c,
  mesh_setup m D1 -> mesh_setup m D2 -> bc_fits m types -> bodies_ok m D1 bs1 -> bodies_ok m D2 bs2 -> same_points bs1 bs2 ->
  uniform_around m h w bs1 -> getKernel name = Ok (K, w) -> wide_enough m w -> (forall b i X, located bs1 b i X -> clear m h (radius name) X) -> periodic_min m 3 -> impermeable m types values ->
  p_bn P = 1%Z -> 0 < p_dt P -> 0 <= p_dimp P * p_nu P -> same_velocity m D1 D2 U1 U2 -> same_pressure D1 D2 p1 p2 ->
  d_init m D1 P types values name bs1 t0 n0 U1 p1 = Ok (O1, X1, a1) -> d_init m D2 P types values name bs2 t0 n0 U2 p2 = Ok (O2, X2, a2) ->
  let nf1 := n_forces m bs1 in let nf2 := n_forces m bs2 in let rf1 := d_assembleRHSForces m X1 in let rf2 := d_assembleRHSForces m X2 in
  let step1 := d_advance m D1 P O1 X1 nf1 (convection m D1) rf1 vs1 ps1 fs1 in let step2 := d_advance m D2 P O2 X2 nf2 (convection m D2) rf2 vs2 ps2 fs2 in
  along step1 (decoupled_exact_step m D1 P O1 X1 nf1 (convection m D1) rf1 vs1 ps1 fs1) a1 k -> along step2 (decoupled_exact_step m D2 P O2 X2 nf2 (convection m D2) rf2 vs2 ps2 fs2) a2 k ->
  run_steps step1 k a1 = Ok x1 -> run_steps step2 k a2 = Ok x2 ->
  reported m D1 bs1 t (x_f x1) l1 -> reported m D2 bs2 t (x_f x2) l2 -> (0 <= c < m_dim m)%Z ->
  zsum (fun b => column l1 (1 + b * m_dim m + c)) 0 (lenZ bs1) = zsum (fun b => column l2 (1 + b * m_dim m + c)) 0 (lenZ bs2).
Proof.
  intros m D1 D2 P types values name bs1 bs2 h K w t0 n0 U1 U2 p1 p2 O1 O2 X1 X2 a1 a2 vs1 ps1 fs1 vs2 ps2 fs2 k x1 x2 t l1 l2 c Hs1 Hs2 Hb Hbo1 Hbo2 Hsm Hu HK Hw Hcl Hm Hi Hbn Hdt Hc HU Hp HC1 HC2 nf1 nf2 rf1 rf2 step1 step2 A1 A2 E1 E2 L1 L2 Hcc.
  destruct (decoupled_run_independent_of_grid m D1 D2 P types values name bs1 bs2 h K w t0 n0 U1 U2 p1 p2 O1 O2 X1 X2 a1 a2 vs1 ps1 fs1 vs2 ps2 fs2 k x1 x2 Hs1 Hs2 Hb Hbo1 Hbo2 Hsm Hu HK Hw Hm Hi Hbn Hdt Hc HU Hp HC1 HC2 A1 A2 E1 E2) as (_ & _ & VH & _).
  destruct (d_init_inv m D1 P types values Hs1 Hb _ _ _ _ _ _ _ _ _ HC1) as (B1 & HB1 & _ & EX1 & _). destruct (d_init_inv m D2 P types values Hs2 Hb _ _ _ _ _ _ _ _ _ HC2) as (B2 & HB2 & _ & EX2 & _).
  destruct (extra_inv m D1 P _ _ _ _ _ EX1) as (Ea & Ha & BNa & EIa & _ & Qa). destruct (extra_inv m D2 P _ _ _ _ _ EX2) as (Eb & Hbb & BNb & EIb & _ & Qb).
  assert (Q1 : di_H X1 = Ha) by (rewrite Qa; reflexivity). assert (Q2 : di_H X2 = Hbb) by (rewrite Qb; reflexivity). rewrite Q1, Q2 in VH.
  assert (Hcl2 : forall b i X, located bs2 b i X -> clear m h (radius name) X) by (intros b i X HX; apply (Hcl b i X); now apply (located_same bs1 bs2 Hsm)).
  pose proof (forces_balance m D1 h B1 name bs1 types values [OpICs U1] Ea Ha K w t (x_f x1) l1 c Hs1 Hu Hbo1 HK Hb HB1 Hw Hcl EIa L1 Hcc) as T1.
  pose proof (forces_balance m D2 h B2 name bs2 types values [OpICs U2] Eb Hbb K w t (x_f x2) l2 c Hs2 (around_same m bs1 bs2 h w Hsm Hu) Hbo2 HK Hb HB2 Hw Hcl2 EIb L2 Hcc) as T2.
  assert (S : zsum (fun id => if (component m D1 id =? c)%Z then cell_volume m h * mvec (n_forces m bs1) Ha (x_f x1) id else 0) 0 (n_velocity m)
            = zsum (fun id => if (component m D2 id =? c)%Z then cell_volume m h * mvec (n_forces m bs2) Hbb (x_f x2) id else 0) 0 (n_velocity m)).
  { pose proof (setup_facts _ _ Hs1) as F1. pose proof (setup_facts _ _ Hs2) as F2.
    apply (numbering_sum _ _ _ _ _ _ _ _ (numV m D1 F1) (numV m D2 F2)). intros [f p] Sk. pose proof (proj1 (vv_same m D1 D2 Hs1 Hs2 _ _) VH (f, p) Sk) as V. destruct Sk as [Hf Hp']. cbn [fst snd] in *.
    unfold component. unfold iv in *. cbn [fst snd] in *. rewrite (proj2 (idx_spec m D1 f p F1 Hf Hp')), (proj2 (idx_spec m D2 f p F2 Hf Hp')). unfold nf1, nf2 in V. now rewrite V. }
  lra.
Qed.
Print Assumptions decoupled_total_force_independent_of_grid.

(** * The hypotheses can be met *)
(** The 8 x 8 box with walls at rest on two ranks and on one, any initial
    velocity [g] and pressure [q] given at the points of the mesh, and the two
    points of the case of C78, fixed or moving, shared by the two ranks or held
    by the one. *)
Definition solo_dec : dec := default_dec (fun _ => 1%Z) (m_n (un_mesh false false)).
Definition solo (X Y : list R) : list (body * list (list R)) := [(default_body 1 2, [X; Y])].
Definition stored_velocity (m : mesh) (D : dec) (g : Z -> pt -> R) : vec := fun id => match nthZ (packed_layout (m_dim m) D) id with Some (f, p) => g f p | None => 0 end.
Definition stored_pressure (D : dec) (q : pt -> R) : vec := fun id => match nthZ (field_layout D 3) id with Some p => q p | None => 0 end.
Lemma solo_setup : mesh_setup (un_mesh false false) solo_dec.
Proof.
  exists ex_mn, un_mx, (ex_per false false), un_w, (fun _ => 1%Z).
  rewrite !un_dim. split; [exact un_grid|]. split; [apply un_create|]. split; [reflexivity|]. split; [intros; lia|]. split; reflexivity.
Qed.
Lemma solo_ok X Y : lenZ X = 2%Z -> lenZ Y = 2%Z -> bodies_ok (un_mesh false false) solo_dec (solo X Y).
Proof.
  intros HX HY. unfold bodies_ok. rewrite un_dim. replace (nranks solo_dec) with 1%Z by reflexivity. split.
  - split; [lia|]. split; [lia|]. repeat constructor; try apply default_distribution; lia.
  - repeat constructor; auto.
Qed.
Lemma solo_located X Y b i Q : located (solo X Y) b i Q <-> located (pair X Y) b i Q.
Proof. apply located_same. reflexivity. Qed.
Lemma solo_ranks X Y b bc r : nthZ (solo X Y) b = Some bc -> (0 <= r < nranks solo_dec)%Z -> (0 < b_l (fst bc) r)%Z.
Proof.
  intros Eb Hr. pose proof (nthZ_Some_range _ _ _ Eb) as Hb. change (lenZ (solo X Y)) with 1%Z in Hb. assert (b = 0%Z) as -> by lia. injection Eb as <-.
  replace (nranks solo_dec) with 1%Z in Hr by reflexivity. assert (r = 0)%Z as -> by lia. reflexivity.
Qed.
Lemma solo_prescribed : prescribed (un_mesh false false) solo_dec (solo [2; 4] [6; 4]) rocking_motion rocking rocking_velocity.
Proof.
  intros t. split; [|split].
  - repeat constructor.
  - reflexivity.
  - intros v. eexists. split; [reflexivity|]. intros row b i c Hr. pose proof (nthZ_Some_range _ _ _ Hr) as Rg.
    replace (body_layout (nranks solo_dec) (m_dim (un_mesh false false)) (map fst (solo [2; 4] [6; 4]))) with [(0, 0, 0); (0, 0, 1); (0, 1, 0); (0, 1, 1)]%Z in Hr, Rg by reflexivity.
    match type of Rg with (0 <= _ < ?n)%Z => change n with 4%Z in Rg end.
    assert (row = 0 \/ row = 1 \/ row = 2 \/ row = 3)%Z as [->|[->|[->| ->]]] by lia; injection Hr as <- <- <-; reflexivity.
Qed.
Lemma un_impermeable : impermeable (un_mesh false false) (un_types false false) (fun _ _ => 0).
Proof. intros f loc Hf Hl _ _. split; [|reflexivity]. unfold un_types. destruct (loc <? 2)%Z; reflexivity. Qed.

Lemma box_runs name K w D bs k refp U0 p0 : let m := un_mesh false false in getKernel name = Ok (K, w) -> mesh_setup m D -> bodies_ok m D bs -> same_points (pair [2; 4] [6; 4]) bs ->
  (forall b bc r, nthZ bs b = Some bc -> (0 <= r < nranks D)%Z -> (0 < b_l (fst bc) r)%Z) -> prescribed m D bs rocking_motion rocking rocking_velocity ->
  let P := mkPar (1/100) 1 1 [3/2; -1/2] (1/2) [1/2] refp in let types := un_types false false in let values := fun _ _ => 0 in let conv := convection m D in let nf := n_forces m bs in
  (exists O s0 vs ps s, ib_init m D P types values name bs 0 0 U0 p0 = Ok (O, s0) /\ along (ib_advance m D P O conv vs ps) (coupled_exact_step m D P O conv vs ps) s0 k /\
     run_steps (ib_advance m D P O conv vs ps) k s0 = Ok s) /\
  (exists O X x0 vs ps fs x, d_init m D P types values name bs 0 0 U0 p0 = Ok (O, X, x0) /\ forces_felt m nf X /\
     along (d_advance m D P O X nf conv (d_assembleRHSForces m X) vs ps fs) (decoupled_exact_step m D P O X nf conv (d_assembleRHSForces m X) vs ps fs) x0 k /\
     run_steps (d_advance m D P O X nf conv (d_assembleRHSForces m X) vs ps fs) k x0 = Ok x) /\
  (exists O s0 vs ps fs s, r_init m D P types values name bs 0 0 U0 p0 = Ok (O, s0) /\
     (forall j B X, (1 <= j <= k)%nat -> (exists hist, boundary_after m D types values hist B) ->
        createExtraOperators m D B P O name (bodies_at bs (rocking (0 + INR j * p_dt P))) = Ok X -> forces_felt m nf X) /\
     along (r_advance m D P O name rocking_motion conv vs ps fs) (moving_exact_step m D P O name rocking_motion conv vs ps fs) s0 k /\
     run_steps (r_advance m D P O name rocking_motion conv vs ps fs) k s0 = Ok s).
Proof.
  intros m HK Hs Hbo Hsm Hrk Hmo P types values conv nf.
  pose proof (un_fits false false) as Hb. pose proof (un_uniform false false) as Hu. pose proof (setup_facts _ _ Hs) as F.
  assert (W : (w <= 3)%Z) by (destruct (getKernel_cases _ _ _ HK) as [(_ & _ & -> & _)|(_ & _ & -> & _)]; lia).
  assert (Cv : forall hist B x, boundary_after m D types values ([OpICs U0] ++ hist) B -> is_ok (conv B x)) by (intros h B x HB; exact (convection_total m D _ _ _ B x Hs Hb HB)).
  assert (Hmin : periodic_min m 3) by (apply un_min; lia). pose proof un_no_neumann as Hnn. pose proof un_undriven as Hun.
  assert (Hdt : 0 < p_dt P) by (cbn; lra). assert (Hc : 0 <= p_dimp P * p_nu P) by (cbn; lra). assert (Hbn : p_bn P = 1%Z) by reflexivity.
  assert (Hloc : forall b i X, located bs b i X -> located (pair [2; 4] [6; 4]) b i X) by (intros b i X; apply (located_same _ _ Hsm)).
  assert (Hreach : forall b i X, located bs b i X -> inside_domain m X /\ in_reach m types w X) by (intros b i X Hl; apply (rocking_reach w 4 4 ltac:(lra) ltac:(lra) b i), Hloc, Hl).
  assert (Hnf : (0 <= nf)%Z) by (assert (Q : lenZ (body_layout (nranks D) (m_dim m) (map fst bs)) = nf) by (apply body_layout_len, Hbo); rewrite <- Q; apply lenZ_nonneg).
  assert (Lat : forall t, List.length (rocking t) = List.length bs) by (intros t; exact (shape_len _ _ (proj1 (Hmo t)))).
  assert (Hat : forall t b i X, located (bodies_at bs (rocking t)) b i X -> located (pair [2; 4 + sin t] [6; 4 - sin t]) b i X).
  { intros t b i X. apply located_same. unfold same_points. rewrite at_snd by apply Lat. reflexivity. }
  split; [|split].
  - assert (T : forall vs ps, exists O s0 s, ib_init m D P types values name bs 0 0 U0 p0 = Ok (O, s0) /\ run_steps (ib_advance m D P O conv vs ps) k s0 = Ok s).
    { intros vs ps. apply (coupled_never_fails m D P types values name bs K w conv vs ps 0 0 U0 p0 k Hs Hb Hbo HK); [cbn; lia|exact Hreach|exact Hrk|exact Cv]. }
    destruct (T (fun _ _ _ => 0) (fun _ _ _ => 0)) as (O & s0 & _ & HI & _).
    destruct (ib_init_inv _ _ _ _ _ _ _ Hs Hb _ _ _ _ _ _ HI) as (B0 & HB0 & EO & _).
    destruct (ib_createOperators_inv _ _ _ _ _ _ _ EO) as (d & g & l & E & H & BN & _ & _ & _ & _ & _ & EOps).
    assert (En : ib_n O = (n_pressure m + nf)%Z) by (rewrite EOps; reflexivity).
    destruct (exact_exists (n_velocity m) (o_A (ib_ns O)) (nv_nonneg m D Hs)) as (vs & Hv).
    destruct (exact_exists (ib_n O) (o_DBNG (ib_ns O)) ltac:(pose proof (np_pos m D Hs); lia)) as (ps & Hp).
    destruct (T vs ps) as (O' & s0' & s & HI' & H2). rewrite HI in HI'. injection HI' as <- <-. exists O, s0, vs, ps, s. split; [exact HI|]. split; [|exact H2].
    exact (coupled_exact_solvers_suffice m D P types values name bs 0 0 U0 p0 O s0 conv vs ps k Hs Hb Hbo Hmin Hnn Hun Hbn Hdt Hc HI Hv Hp).
  - assert (T : forall vs ps fs, exists O X x0 x, d_init m D P types values name bs 0 0 U0 p0 = Ok (O, X, x0) /\
      run_steps (d_advance m D P O X nf conv (d_assembleRHSForces m X) vs ps fs) k x0 = Ok x).
    { intros vs ps fs. apply (decoupled_never_fails m D P types values name bs K w conv vs ps fs 0 0 U0 p0 k Hs Hb Hbo HK); [cbn; lia|exact Hreach|exact Hrk|exact Cv]. }
    destruct (T (fun _ _ _ => 0) (fun _ _ _ => 0) (fun _ _ _ => 0)) as (O & X & x0 & _ & HI & _).
    destruct (d_init_inv m D P types values Hs Hb _ _ _ _ _ _ _ _ _ HI) as (B & HB & _ & EXB & _).
    destruct (exact_exists (n_velocity m) (o_A O) (nv_nonneg m D Hs)) as (vs & Hv).
    destruct (exact_exists (n_pressure m) (o_DBNG O) ltac:(pose proof (np_pos m D Hs); lia)) as (ps & Hp).
    destruct (exact_exists nf (di_EBNH X) Hnf) as (fs & Hf).
    destruct (T vs ps fs) as (O' & X' & x0' & x & HI' & H2). rewrite HI in HI'. injection HI' as <- <- <-. exists O, X, x0, vs, ps, fs, x.
    split; [exact HI|]. split; [|split; [|exact H2]].
    + apply (far_apart_points_are_felt m D P types values O name bs unit_h K w [OpICs U0] B X Hs (uniform_is_around m D unit_h w _ Hs Hu) Hbo HK Hb HB (un_wide false false w W)); auto.
      * intros b i X' Hl. apply (rocking_clear name K w 4 4 HK ltac:(lra) ltac:(lra) b i), Hloc, Hl.
      * intros b i X' b' i' X'' Hl Hl' Hne. exact (rocking_far name K w 4 4 HK b i X' b' i' X'' (Hloc _ _ _ Hl) (Hloc _ _ _ Hl') Hne).
    + exact (decoupled_exact_solvers_suffice m D P types values name bs 0 0 U0 p0 O X x0 conv vs ps fs k Hs Hb Hbo Hmin Hnn Hun Hbn Hdt Hc HI Hv Hp Hf).
  - assert (T : forall vs ps fs, exists O s0 s, r_init m D P types values name bs 0 0 U0 p0 = Ok (O, s0) /\ run_steps (r_advance m D P O name rocking_motion conv vs ps fs) k s0 = Ok s).
    { intros vs ps fs. apply (moving_never_fails m D P types values name bs rocking_motion rocking rocking_velocity conv vs ps fs K w 0 0 U0 p0 k Hs Hb Hbo Hmo HK);
        [cbn; lia|exact Hreach| |exact Hrk|exact Cv].
      intros j b i X _ Hl. exact (rocking_reach w _ _ (proj1 (sin_bounds _)) (proj2 (sin_bounds _)) b i X (Hat _ _ _ _ Hl)). }
    destruct (T (fun _ _ _ => 0) (fun _ _ _ => 0) (fun _ _ _ _ => 0)) as (O & s0 & _ & HI & _).
    destruct (exact_exists (n_velocity m) (o_A O) (nv_nonneg m D Hs)) as (vs & Hv).
    destruct (exact_exists (n_pressure m) (o_DBNG O) ltac:(pose proof (np_pos m D Hs); lia)) as (ps & Hp).
    destruct (exact_family nf Hnf) as (fs & Hf). destruct (T vs ps fs) as (O' & s0' & s & HI' & H2). rewrite HI in HI'. injection HI' as <- <-.
    assert (Hff : forall j B X, (1 <= j <= k)%nat -> (exists hist, boundary_after m D types values hist B) ->
        createExtraOperators m D B P O name (bodies_at bs (rocking (0 + INR j * p_dt P))) = Ok X -> forces_felt m nf X).
    { intros j B X _ (hist & HB) EX. set (t := 0 + INR j * p_dt P) in *. unfold nf. rewrite <- (forces_at m bs (rocking t) (Lat t)).
      apply (far_apart_points_are_felt m D P types values O name (bodies_at bs (rocking t)) unit_h K w hist B X Hs (uniform_is_around m D unit_h w _ Hs Hu) (ok_at m D bs _ Hbo (proj1 (Hmo t))) HK Hb HB (un_wide false false w W)); auto.
      * intros b i X' Hl. exact (rocking_clear name K w _ _ HK (proj1 (sin_bounds t)) (proj2 (sin_bounds t)) b i X' (Hat t _ _ _ Hl)).
      * intros b i X' b' i' X'' Hl Hl' Hne. exact (rocking_far name K w _ _ HK b i X' b' i' X'' (Hat t _ _ _ Hl) (Hat t _ _ _ Hl') Hne). }
    exists O, s0, vs, ps, fs, s. split; [exact HI|]. split; [exact Hff|]. split; [|exact H2].
    exact (moving_exact_solvers_suffice m D P types values name bs rocking_motion rocking rocking_velocity 0 0 U0 p0 O s0 conv vs ps fs k Hs Hb Hbo Hmo Hmin Hnn Hun Hbn Hdt Hc HI Hff Hv Hp Hf).
Qed.

Example ib_grid_case : forall name K w g q refp k, getKernel name = Ok (K, w) ->
  let m := un_mesh false false in let D1 := un_dec false false in let D2 := solo_dec in let bs1 := pair [2; 4] [6; 4] in let bs2 := solo [2; 4] [6; 4] in
  let P := mkPar (1/100) 1 1 [3/2; -1/2] (1/2) [1/2] refp in let types := un_types false false in let values := fun _ _ => 0 in
  let U1 := stored_velocity m D1 g in let U2 := stored_velocity m D2 g in let p1 := stored_pressure D1 q in let p2 := stored_pressure D2 q in
  nranks D1 = 2%Z /\ nranks D2 = 1%Z /\ mesh_setup m D1 /\ mesh_setup m D2 /\ bc_fits m types /\ bodies_ok m D1 bs1 /\ bodies_ok m D2 bs2 /\ same_points bs1 bs2 /\
  prescribed m D1 bs1 rocking_motion rocking rocking_velocity /\ prescribed m D2 bs2 rocking_motion rocking rocking_velocity /\
  uniform_around m unit_h w bs1 /\ (forall t, uniform_around m unit_h w (bodies_at bs1 (rocking t))) /\ wide_enough m w /\ (forall b i X, located bs1 b i X -> clear m unit_h (radius name) X) /\ periodic_min m 3 /\ impermeable m types values /\
  p_bn P = 1%Z /\ 0 < p_dt P /\ 0 <= p_dimp P * p_nu P /\ same_velocity m D1 D2 U1 U2 /\ same_pressure D1 D2 p1 p2 /\
  (exists O1 O2 a1 a2 vs1 ps1 vs2 ps2 s1 s2,
     ib_init m D1 P types values name bs1 0 0 U1 p1 = Ok (O1, a1) /\ ib_init m D2 P types values name bs2 0 0 U2 p2 = Ok (O2, a2) /\
     along (ib_advance m D1 P O1 (convection m D1) vs1 ps1) (coupled_exact_step m D1 P O1 (convection m D1) vs1 ps1) a1 k /\
     along (ib_advance m D2 P O2 (convection m D2) vs2 ps2) (coupled_exact_step m D2 P O2 (convection m D2) vs2 ps2) a2 k /\
     run_steps (ib_advance m D1 P O1 (convection m D1) vs1 ps1) k a1 = Ok s1 /\ run_steps (ib_advance m D2 P O2 (convection m D2) vs2 ps2) k a2 = Ok s2) /\
  (exists O1 O2 X1 X2 a1 a2 vs1 ps1 fs1 vs2 ps2 fs2 x1 x2,
     let nf1 := n_forces m bs1 in let nf2 := n_forces m bs2 in let rf1 := d_assembleRHSForces m X1 in let rf2 := d_assembleRHSForces m X2 in
     d_init m D1 P types values name bs1 0 0 U1 p1 = Ok (O1, X1, a1) /\ d_init m D2 P types values name bs2 0 0 U2 p2 = Ok (O2, X2, a2) /\ forces_felt m nf1 X1 /\
     along (d_advance m D1 P O1 X1 nf1 (convection m D1) rf1 vs1 ps1 fs1) (decoupled_exact_step m D1 P O1 X1 nf1 (convection m D1) rf1 vs1 ps1 fs1) a1 k /\
     along (d_advance m D2 P O2 X2 nf2 (convection m D2) rf2 vs2 ps2 fs2) (decoupled_exact_step m D2 P O2 X2 nf2 (convection m D2) rf2 vs2 ps2 fs2) a2 k /\
     run_steps (d_advance m D1 P O1 X1 nf1 (convection m D1) rf1 vs1 ps1 fs1) k a1 = Ok x1 /\ run_steps (d_advance m D2 P O2 X2 nf2 (convection m D2) rf2 vs2 ps2 fs2) k a2 = Ok x2) /\
  (exists O1 O2 a1 a2 vs1 ps1 fs1 vs2 ps2 fs2 s1 s2,
     r_init m D1 P types values name bs1 0 0 U1 p1 = Ok (O1, a1) /\ r_init m D2 P types values name bs2 0 0 U2 p2 = Ok (O2, a2) /\
     (forall j B X, (1 <= j <= k)%nat -> (exists hist, boundary_after m D1 types values hist B) ->
        createExtraOperators m D1 B P O1 name (bodies_at bs1 (rocking (0 + INR j * p_dt P))) = Ok X -> forces_felt m (n_forces m bs1) X) /\
     along (r_advance m D1 P O1 name rocking_motion (convection m D1) vs1 ps1 fs1) (moving_exact_step m D1 P O1 name rocking_motion (convection m D1) vs1 ps1 fs1) a1 k /\
     along (r_advance m D2 P O2 name rocking_motion (convection m D2) vs2 ps2 fs2) (moving_exact_step m D2 P O2 name rocking_motion (convection m D2) vs2 ps2 fs2) a2 k /\
     run_steps (r_advance m D1 P O1 name rocking_motion (convection m D1) vs1 ps1 fs1) k a1 = Ok s1 /\ run_steps (r_advance m D2 P O2 name rocking_motion (convection m D2) vs2 ps2 fs2) k a2 = Ok s2).
Proof.
  intros name K w g q refp k HK m D1 D2 bs1 bs2 P types values U1 U2 p1 p2.
  assert (W : (w <= 3)%Z) by (destruct (getKernel_cases _ _ _ HK) as [(_ & _ & -> & _)|(_ & _ & -> & _)]; lia).
  pose proof (pair_ok false false [2; 4] [6; 4] eq_refl eq_refl) as Hbo1. pose proof (solo_ok [2; 4] [6; 4] eq_refl eq_refl) as Hbo2.
  split; [reflexivity|]. split; [reflexivity|]. split; [apply un_setup|]. split; [exact solo_setup|]. split; [apply un_fits|]. split; [exact Hbo1|]. split; [exact Hbo2|]. split; [reflexivity|].
  split; [exact rocking_prescribed|]. split; [exact solo_prescribed|]. split; [apply (uniform_is_around m D1 unit_h w _ (un_setup false false)), un_uniform|]. split; [intros t; apply (uniform_is_around m D1 unit_h w _ (un_setup false false)), un_uniform|]. split; [now apply un_wide|]. split; [apply (rocking_clear name K w); auto; lra|].
  split; [apply un_min; lia|]. split; [exact un_impermeable|]. split; [reflexivity|]. split; [cbn; lra|]. split; [cbn; lra|].
  split; [intros i1 i2 f x E1 E2; unfold U1, U2, stored_velocity; unfold m in *; now rewrite E1, E2|]. split; [intros i1 i2 x E1 E2; unfold p1, p2, stored_pressure; now rewrite E1, E2|].
  destruct (box_runs name K w D1 bs1 k refp U1 p1 HK (un_setup false false) Hbo1 eq_refl (pair_ranks false false _ _) rocking_prescribed)
    as ((O1 & a1 & vs1 & ps1 & s1 & I1 & A1 & R1) & (O2 & X2 & a2 & vs2 & ps2 & fs2 & s2 & I2 & Ff2 & A2 & R2) & (O3 & a3 & vs3 & ps3 & fs3 & s3 & I3 & Ff3 & A3 & R3)).
  destruct (box_runs name K w D2 bs2 k refp U2 p2 HK solo_setup Hbo2 eq_refl (solo_ranks _ _) solo_prescribed)
    as ((O1' & a1' & vs1' & ps1' & s1' & I1' & A1' & R1') & (O2' & X2' & a2' & vs2' & ps2' & fs2' & s2' & I2' & Ff2' & A2' & R2') & (O3' & a3' & vs3' & ps3' & fs3' & s3' & I3' & Ff3' & A3' & R3')).
  split; [|split].
  - exists O1, O1', a1, a1', vs1, ps1, vs1', ps1', s1, s1'. exact (conj I1 (conj I1' (conj A1 (conj A1' (conj R1 R1'))))).
  - exists O2, O2', X2, X2', a2, a2', vs2, ps2, fs2, vs2', ps2', fs2', s2, s2'. exact (conj I2 (conj I2' (conj Ff2 (conj A2 (conj A2' (conj R2 R2')))))).
  - exists O3, O3', a3, a3', vs3, ps3, fs3, vs3', ps3', fs3', s3, s3'. exact (conj I3 (conj I3' (conj Ff3 (conj A3 (conj A3' (conj R3 R3')))))).
Qed.
