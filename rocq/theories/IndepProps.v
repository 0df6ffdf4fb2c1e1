(** C78. The run of an immersed-boundary solver does not depend on the linear
    solvers: two runs from the same configuration whose linear solvers return
    solutions of their systems produce the same flow, although the systems of
    the pressure and of the forces may be singular. *)
From Coq Require Import Lia ZifyBool String List.
Import ListNotations.
From Verif Require Import Prelude ZSum RSum TypesModel GridModel GridSpec GridProof GridProps MeshProof
  IndexModel IndexSpec IndexProof BoundaryModel BoundarySpec BoundaryProof OperatorModel OperatorSpec OperatorProof BStateProof LapProof DivProof GradProof
  AdjProof SymProof MatModel BnModel NSModel NSSpec NSProof NSPin BnSpec BnProof LinAlg UniqueProof ConvModel ConvSpec EnergySpec EnergyProof EnergyRun
  BodyModel BodySpec BodyProof BodyProps DeltaModel DeltaSpec DeltaKernel DeltaProof DeltaSum DeltaProps IbpmModel IbpmSpec IbpmProof IbpmStep IbpmDec IbpmMove IbpmProps MoveProps
  RestartProof DecSpec DecConv IbOutSpec IbOutBalance IbOutProps IndepSpec IndepProof IndepRun IndepCase.
Local Open Scope R_scope.

(** The coupled solver: the same velocity, the same history, and the same
    pressure gradient less the spread forces. *)
Theorem coupled_run_independent_of_solver : forall m D P types values name bodies t0 n0 U0 p0 O s0 vs1 ps1 vs2 ps2 k s1 s2,
  mesh_setup m D -> bc_fits m types -> bodies_ok m D bodies -> periodic_min m 3 -> no_normal_neumann m types ->
  p_bn P = 1%Z -> 0 < p_dt P -> 0 <= p_dimp P * p_nu P ->
  ib_init m D P types values name bodies t0 n0 U0 p0 = Ok (O, s0) ->
  let conv := convection m D in
  along (ib_advance m D P O conv vs1 ps1) (coupled_exact_step m D P O conv vs1 ps1) s0 k ->
  along (ib_advance m D P O conv vs2 ps2) (coupled_exact_step m D P O conv vs2 ps2) s0 k ->
  run_steps (ib_advance m D P O conv vs1 ps1) k s0 = Ok s1 -> run_steps (ib_advance m D P O conv vs2 ps2) k s0 = Ok s2 ->
  same_flow m s1 s2 /\ same_entries (n_velocity m) (mvec (ib_n O) (o_G (ib_ns O)) (s_p s1)) (mvec (ib_n O) (o_G (ib_ns O)) (s_p s2)).
Proof.
  intros m D P types values name bodies t0 n0 U0 p0 O s0 vs1 ps1 vs2 ps2 k s1 s2 Hs Hb Hbo Hm Hn Hbn Hdt Hc HI conv A1 A2 E1 E2.
  pose proof (agree_quiet m D types values Hs conv (conv_agree_same m D types values Hs Hb)) as Hq.
  destruct (crun m D P types values name bodies t0 n0 U0 p0 O s0 Hs Hb Hbo Hm Hn Hbn Hdt Hc HI conv Hq vs1 vs2 ps1 ps2 k s1 s2 A1 A2 E1 E2) as (X & Y & _). auto.
Qed.
Print Assumptions coupled_run_independent_of_solver.

(** The decoupled solver: the same flow, the same pressure (up to a constant if
    it is not pinned), the same spread forces. *)
Theorem decoupled_run_independent_of_solver : forall m D P types values name bodies t0 n0 U0 p0 O X x0 vs1 ps1 fs1 vs2 ps2 fs2 k x1 x2,
  mesh_setup m D -> bc_fits m types -> periodic_min m 3 -> no_normal_neumann m types ->
  p_bn P = 1%Z -> 0 < p_dt P -> 0 <= p_dimp P * p_nu P ->
  d_init m D P types values name bodies t0 n0 U0 p0 = Ok (O, X, x0) ->
  let conv := convection m D in let nf := n_forces m bodies in let rf := d_assembleRHSForces m X in
  along (d_advance m D P O X nf conv rf vs1 ps1 fs1) (decoupled_exact_step m D P O X nf conv rf vs1 ps1 fs1) x0 k ->
  along (d_advance m D P O X nf conv rf vs2 ps2 fs2) (decoupled_exact_step m D P O X nf conv rf vs2 ps2 fs2) x0 k ->
  run_steps (d_advance m D P O X nf conv rf vs1 ps1 fs1) k x0 = Ok x1 -> run_steps (d_advance m D P O X nf conv rf vs2 ps2 fs2) k x0 = Ok x2 ->
  same_flow m (x_ns x1) (x_ns x2) /\
  (if p_refp P then same_entries (n_pressure m) (s_p (x_ns x1)) (s_p (x_ns x2)) else same_up_to_constant (n_pressure m) (s_p (x_ns x1)) (s_p (x_ns x2))) /\
  same_entries (n_velocity m) (mvec nf (di_H X) (x_f x1)) (mvec nf (di_H X) (x_f x2)) /\
  (forces_felt m nf X -> same_entries nf (x_f x1) (x_f x2)).
Proof.
  intros m D P types values name bodies t0 n0 U0 p0 O X x0 vs1 ps1 fs1 vs2 ps2 fs2 k x1 x2 Hs Hb Hm Hn Hbn Hdt Hc HI conv nf rf A1 A2 E1 E2.
  pose proof (agree_quiet m D types values Hs conv (conv_agree_same m D types values Hs Hb)) as Hq.
  pose proof HI as HI'. unfold d_init in HI'. apply bind_ok_inv in HI'. destruct HI' as ([O' a0] & HN & HI'). apply bind_ok_inv in HI'. destruct HI' as (X' & EX & HI'). injection HI' as -> -> <-.
  destruct (d_init_inv m D P types values Hs Hb _ _ _ _ _ _ _ _ _ HI) as (B & HB & _ & EXB & _).
  destruct (drun m D P types values t0 n0 U0 p0 O a0 Hs Hb Hm Hn Hbn Hdt Hc HN conv Hq vs1 vs2 ps1 ps2 name bodies X B rf fs1 fs2 (mkDS a0 (fun _ => 0) (fun _ => 0)) k HB EXB eq_refl) with (y1 := x1) (y2 := x2)
    as ((F1 & (a & Ha & Hp) & _) & VH); auto.
  { intros u1 u2 Hu i _. unfold rf, d_assembleRHSForces, vscale. now rewrite (se_mvec_at _ _ _ _ i Hu). }
  split; [exact F1|]. split; [|split; [exact VH|]].
  - destruct (p_refp P); [|exists a; exact Hp]. intros i Hi. rewrite (Hp i Hi), (Ha eq_refl). ring.
  - intros Hff i Hi. pose proof (Hff (fun j => x_f x1 j - x_f x2 j) ltac:(intros c Hcc; rewrite mvec_minus; pose proof (VH c Hcc) as Q; fold nf in Q; rewrite Q; ring) i Hi) as Z0. cbv beta in Z0. lra.
Qed.
Print Assumptions decoupled_run_independent_of_solver.

(** Even when single forces are not determined, the total force in the forces
    file is: the two runs report lines whose forces, summed over the bodies,
    agree. *)
Theorem decoupled_total_force_independent_of_solver : forall m D P types values name bodies h K w t0 n0 U0 p0 O X x0 vs1 ps1 fs1 vs2 ps2 fs2 k x1 x2 t l1 l2 c,
  mesh_setup m D -> bc_fits m types -> bodies_ok m D bodies -> periodic_min m 3 -> no_normal_neumann m types ->
  uniform_around m h w bodies -> getKernel name = Ok (K, w) -> wide_enough m w -> (forall b i X, located bodies b i X -> clear m h (radius name) X) ->
  p_bn P = 1%Z -> 0 < p_dt P -> 0 <= p_dimp P * p_nu P ->
  d_init m D P types values name bodies t0 n0 U0 p0 = Ok (O, X, x0) ->
  let conv := convection m D in let nf := n_forces m bodies in let rf := d_assembleRHSForces m X in
  along (d_advance m D P O X nf conv rf vs1 ps1 fs1) (decoupled_exact_step m D P O X nf conv rf vs1 ps1 fs1) x0 k ->
  along (d_advance m D P O X nf conv rf vs2 ps2 fs2) (decoupled_exact_step m D P O X nf conv rf vs2 ps2 fs2) x0 k ->
  run_steps (d_advance m D P O X nf conv rf vs1 ps1 fs1) k x0 = Ok x1 -> run_steps (d_advance m D P O X nf conv rf vs2 ps2 fs2) k x0 = Ok x2 ->
  reported m D bodies t (x_f x1) l1 -> reported m D bodies t (x_f x2) l2 -> (0 <= c < m_dim m)%Z ->
  zsum (fun b => column l1 (1 + b * m_dim m + c)) 0 (lenZ bodies) = zsum (fun b => column l2 (1 + b * m_dim m + c)) 0 (lenZ bodies).
Proof.
  intros m D P types values name bodies h K w t0 n0 U0 p0 O X x0 vs1 ps1 fs1 vs2 ps2 fs2 k x1 x2 t l1 l2 c Hs Hb Hbo Hm Hn Hu HK Hw Hcl Hbn Hdt Hc HI conv nf rf A1 A2 E1 E2 L1 L2 Hcc.
  destruct (decoupled_run_independent_of_solver m D P types values name bodies t0 n0 U0 p0 O X x0 vs1 ps1 fs1 vs2 ps2 fs2 k x1 x2 Hs Hb Hm Hn Hbn Hdt Hc HI A1 A2 E1 E2) as (_ & _ & VH & _).
  destruct (d_init_inv m D P types values Hs Hb _ _ _ _ _ _ _ _ _ HI) as (B & HB & _ & EXB & _).
  destruct (extra_inv m D P _ _ _ _ _ EXB) as (E & H & BN & EI & EB & EXX). assert (EH : di_H X = H) by (rewrite EXX; reflexivity).
  pose proof (forces_balance m D h B name bodies types values [OpICs U0] E H K w t (x_f x1) l1 c Hs Hu Hbo HK Hb HB Hw Hcl EI L1 Hcc) as B1.
  pose proof (forces_balance m D h B name bodies types values [OpICs U0] E H K w t (x_f x2) l2 c Hs Hu Hbo HK Hb HB Hw Hcl EI L2 Hcc) as B2.
  assert (S : zsum (fun id => if (component m D id =? c)%Z then cell_volume m h * mvec (n_forces m bodies) H (x_f x1) id else 0) 0 (n_velocity m)
            = zsum (fun id => if (component m D id =? c)%Z then cell_volume m h * mvec (n_forces m bodies) H (x_f x2) id else 0) 0 (n_velocity m)).
  { apply zsum_ext. intros id Hid. specialize (VH id Hid). rewrite EH in VH. rewrite VH. reflexivity. }
  lra.
Qed.
Print Assumptions decoupled_total_force_independent_of_solver.

(** Moving bodies, as long as the forces are felt at every step: *)
Theorem moving_run_independent_of_solver : forall m D P types values name bodies mo pos vel t0 n0 U0 p0 O s0 vs1 ps1 fs1 vs2 ps2 fs2 k s1 s2,
  mesh_setup m D -> bc_fits m types -> bodies_ok m D bodies -> prescribed m D bodies mo pos vel -> periodic_min m 3 -> no_normal_neumann m types ->
  p_bn P = 1%Z -> 0 < p_dt P -> 0 <= p_dimp P * p_nu P ->
  r_init m D P types values name bodies t0 n0 U0 p0 = Ok (O, s0) ->
  let conv := convection m D in let nf := n_forces m bodies in
  (forall j B X, (1 <= j <= k)%nat -> (exists hist, boundary_after m D types values hist B) -> createExtraOperators m D B P O name (bodies_at bodies (pos (t0 + INR j * p_dt P))) = Ok X -> forces_felt m nf X) ->
  along (r_advance m D P O name mo conv vs1 ps1 fs1) (moving_exact_step m D P O name mo conv vs1 ps1 fs1) s0 k ->
  along (r_advance m D P O name mo conv vs2 ps2 fs2) (moving_exact_step m D P O name mo conv vs2 ps2 fs2) s0 k ->
  run_steps (r_advance m D P O name mo conv vs1 ps1 fs1) k s0 = Ok s1 -> run_steps (r_advance m D P O name mo conv vs2 ps2 fs2) k s0 = Ok s2 ->
  same_flow m (x_ns (r_x s1)) (x_ns (r_x s2)) /\
  (if p_refp P then same_entries (n_pressure m) (s_p (x_ns (r_x s1))) (s_p (x_ns (r_x s2))) else same_up_to_constant (n_pressure m) (s_p (x_ns (r_x s1))) (s_p (x_ns (r_x s2)))) /\
  same_entries nf (x_f (r_x s1)) (x_f (r_x s2)) /\ r_bodies s1 = r_bodies s2.
Proof.
  intros m D P types values name bodies mo pos vel t0 n0 U0 p0 O s0 vs1 ps1 fs1 vs2 ps2 fs2 k s1 s2 Hs Hb Hbo Hmo Hm Hn Hbn Hdt Hc HI conv nf Hff A1 A2 E1 E2.
  pose proof (agree_quiet m D types values Hs conv (conv_agree_same m D types values Hs Hb)) as Hq.
  destruct (rrun m D P types values name bodies mo pos vel t0 n0 U0 p0 O s0 Hs Hb Hbo Hmo Hm Hn Hbn Hdt Hc HI conv Hq vs1 vs2 ps1 ps2 fs1 fs2 k Hff s1 s2 A1 A2 E1 E2)
    as ((F1 & (a & Ha & Hp) & _) & VF & VB).
  split; [exact F1|]. split; [|split; [exact VF|exact VB]].
  destruct (p_refp P); [|exists a; exact Hp]. intros i Hi. rewrite (Hp i Hi), (Ha eq_refl). ring.
Qed.
Print Assumptions moving_run_independent_of_solver.

(** Points further apart than the kernel reaches have forces that are felt. *)
Theorem far_apart_points_are_felt : forall m D P types values O name bodies h K w hist B X,
  mesh_setup m D -> uniform_around m h w bodies -> bodies_ok m D bodies -> getKernel name = Ok (K, w) -> bc_fits m types -> boundary_after m D types values hist B -> wide_enough m w ->
  (forall b i X, located bodies b i X -> clear m h (radius name) X) -> far_apart m h (radius name) bodies ->
  createExtraOperators m D B P O name bodies = Ok X -> forces_felt m (n_forces m bodies) X.
Proof. exact far_apart_felt. Qed.
Print Assumptions far_apart_points_are_felt.

(** * Runs that nothing drives *)
(** With walls at rest every system of the run has a solution: solvers that find
    a solution whenever there is one are enough. *)
Theorem coupled_exact_solvers_suffice : forall m D P types values name bodies t0 n0 U0 p0 O s0 conv vs ps k,
  mesh_setup m D -> bc_fits m types -> bodies_ok m D bodies -> periodic_min m 3 -> no_normal_neumann m types -> undriven m types values ->
  p_bn P = 1%Z -> 0 < p_dt P -> 0 <= p_dimp P * p_nu P ->
  ib_init m D P types values name bodies t0 n0 U0 p0 = Ok (O, s0) ->
  exact_solver (n_velocity m) (o_A (ib_ns O)) vs -> exact_solver (ib_n O) (o_DBNG (ib_ns O)) ps ->
  along (ib_advance m D P O conv vs ps) (coupled_exact_step m D P O conv vs ps) s0 k.
Proof.
  intros m D P types values name bodies t0 n0 U0 p0 O s0 conv vs ps k Hs Hb Hbo Hm Hn Hu Hbn Hdt Hc HI Hv Hp j s _ E.
  exact (coupled_exact m D P types values name bodies t0 n0 U0 p0 O s0 Hs Hb Hbo Hm Hn Hu Hbn Hdt Hc HI conv vs ps Hv Hp j s E).
Qed.
Print Assumptions coupled_exact_solvers_suffice.

Theorem decoupled_exact_solvers_suffice : forall m D P types values name bodies t0 n0 U0 p0 O X x0 conv vs ps fs k,
  mesh_setup m D -> bc_fits m types -> bodies_ok m D bodies -> periodic_min m 3 -> no_normal_neumann m types -> undriven m types values ->
  p_bn P = 1%Z -> 0 < p_dt P -> 0 <= p_dimp P * p_nu P ->
  d_init m D P types values name bodies t0 n0 U0 p0 = Ok (O, X, x0) ->
  let nf := n_forces m bodies in let rf := d_assembleRHSForces m X in
  exact_solver (n_velocity m) (o_A O) vs -> exact_solver (n_pressure m) (o_DBNG O) ps -> exact_solver nf (di_EBNH X) fs ->
  along (d_advance m D P O X nf conv rf vs ps fs) (decoupled_exact_step m D P O X nf conv rf vs ps fs) x0 k.
Proof.
  intros m D P types values name bodies t0 n0 U0 p0 O X x0 conv vs ps fs k Hs Hb Hbo Hm Hn Hu Hbn Hdt Hc HI nf rf Hv Hp Hf j x _ E.
  pose proof HI as HI'. unfold d_init in HI'. apply bind_ok_inv in HI'. destruct HI' as ([O' a0] & HN & HI'). apply bind_ok_inv in HI'. destruct HI' as (X' & EX & HI'). injection HI' as -> -> _.
  destruct (d_steps_boundary m D P types values Hs Hb _ _ _ _ _ _ _ _ _ _ _ _ _ _ _ _ _ HI E) as (HB & _).
  apply (decoupled_exact m D P types values t0 n0 U0 p0 O a0 Hs Hb Hm Hn Hu Hbn Hdt Hc HN conv vs ps Hv Hp nf X rf fs x HB).
  exact (fixed_forces m D P name bodies O Hs Hbo Hbn Hdt _ X fs EX Hf).
Qed.
Print Assumptions decoupled_exact_solvers_suffice.

Theorem moving_exact_solvers_suffice : forall m D P types values name bodies mo pos vel t0 n0 U0 p0 O s0 conv vs ps fs k,
  mesh_setup m D -> bc_fits m types -> bodies_ok m D bodies -> prescribed m D bodies mo pos vel -> periodic_min m 3 -> no_normal_neumann m types -> undriven m types values ->
  p_bn P = 1%Z -> 0 < p_dt P -> 0 <= p_dimp P * p_nu P ->
  r_init m D P types values name bodies t0 n0 U0 p0 = Ok (O, s0) ->
  let nf := n_forces m bodies in
  (forall j B X, (1 <= j <= k)%nat -> (exists hist, boundary_after m D types values hist B) -> createExtraOperators m D B P O name (bodies_at bodies (pos (t0 + INR j * p_dt P))) = Ok X -> forces_felt m nf X) ->
  exact_solver (n_velocity m) (o_A O) vs -> exact_solver (n_pressure m) (o_DBNG O) ps -> (forall A, exact_solver nf A (fs A)) ->
  along (r_advance m D P O name mo conv vs ps fs) (moving_exact_step m D P O name mo conv vs ps fs) s0 k.
Proof.
  intros m D P types values name bodies mo pos vel t0 n0 U0 p0 O s0 conv vs ps fs k Hs Hb Hbo Hmo Hm Hn Hu Hbn Hdt Hc HI nf Hff Hv Hp Hf j s Hj E s1 E1.
  destruct (r_steps m D P types values Hs Hb name bodies mo pos vel Hmo conv vs ps fs _ _ _ _ _ _ _ _ HI E) as (Sh & HB & T & _).
  destruct (r_init_inv m D P types values Hs Hb name bodies _ _ _ _ _ _ HI) as (B & X & x0 & _ & _ & ED & _).
  unfold d_init in ED. apply bind_ok_inv in ED. destruct ED as ([O' a0] & HN & ED). apply bind_ok_inv in ED. destruct ED as (X' & _ & ED). injection ED as -> _ _.
  set (t := t0 + INR (S j) * p_dt P). assert (Et : t0 + INR j * p_dt P + p_dt P = t) by (unfold t; rewrite S_INR; ring).
  rewrite T, Et in E1. destruct (move_inv m D P name bodies mo pos vel Hmo O t s s1 Sh E1) as (Y1 & Yb & Yv & YX & Ys).
  assert (En : n_forces m (bodies_at bodies (pos t)) = nf) by (apply forces_at; exact (shape_len _ _ (proj1 (Hmo t)))).
  assert (Hbo' : bodies_ok m D (bodies_at bodies (pos t))) by exact (ok_at m D bodies (pos t) Hbo (proj1 (Hmo t))).
  rewrite Yb in *. rewrite En.
  apply (decoupled_exact m D P types values t0 n0 U0 p0 O a0 Hs Hb Hm Hn Hu Hbn Hdt Hc HN conv vs ps Hv Hp nf (r_ops s1)).
  - rewrite Y1. exact HB.
  - intros U g. rewrite Ys. rewrite <- En. refine (felt_forces m D P name (bodies_at bodies (pos t)) O Hs Hbo' Hbn Hdt _ (r_ops s1) _ (fs (di_EBNH (r_ops s1))) YX _ _ g).
    + rewrite En. destruct HB as (h1 & HB). exact (Hff (S j) _ _ ltac:(lia) (ex_intro (fun h => boundary_after m D types values h _) _ HB) YX).
    + rewrite En. apply Hf.
Qed.
Print Assumptions moving_exact_solvers_suffice.

(** * Coincident points *)
(** That the forces on each body are determined is false: with two bodies at the
    same place, two solvers that solve every system give different lines of the
    forces file after one step (the flow, and the sum over the bodies, are the
    same). *)
Definition twins (X Y : list R) : list (body * list (list R)) := [(default_body 2 2, [X; Y]); (default_body 2 2, [X; Y])].
Lemma twins_rows X Y : body_layout (nranks (un_dec false false)) (m_dim (un_mesh false false)) (map fst (twins X Y)) =
  [(0, 0, 0); (0, 0, 1); (1, 0, 0); (1, 0, 1); (0, 1, 0); (0, 1, 1); (1, 1, 0); (1, 1, 1)]%Z.
Proof. reflexivity. Qed.
Lemma twins_ok X Y : lenZ X = 2%Z -> lenZ Y = 2%Z -> bodies_ok (un_mesh false false) (un_dec false false) (twins X Y).
Proof.
  intros HX HY. unfold bodies_ok. rewrite un_dim. replace (nranks (un_dec false false)) with 2%Z by reflexivity. split.
  - split; [lia|]. split; [lia|]. assert (Q : spread 2 (default_body 2 2)) by (apply default_distribution; lia). exact (Forall_cons _ Q (Forall_cons _ Q (Forall_nil _))).
  - repeat constructor; auto.
Qed.
Lemma twins_located X Y b i P : located (twins X Y) b i P <-> (b = 0 \/ b = 1)%Z /\ ((i = 0%Z /\ P = X) \/ (i = 1%Z /\ P = Y)).
Proof.
  split.
  - intros (bc & Eb & EP). pose proof (nthZ_Some_range _ _ _ Eb) as Hr. change (lenZ (twins X Y)) with 2%Z in Hr.
    assert (b = 0 \/ b = 1)%Z as [->| ->] by lia; injection Eb as <-; cbn [snd] in EP; pose proof (nthZ_Some_range _ _ _ EP) as Hi; change (lenZ [X; Y]) with 2%Z in Hi;
      (split; [lia|]); assert (i = 0 \/ i = 1)%Z as [->| ->] by lia; injection EP as <-; auto.
  - intros ([->| ->] & [(-> & ->)|(-> & ->)]); eexists; split; reflexivity.
Qed.
Lemma twins_ranks X Y b bc r : nthZ (twins X Y) b = Some bc -> (0 <= r < nranks (un_dec false false))%Z -> (0 < b_l (fst bc) r)%Z.
Proof.
  intros Eb Hr. pose proof (nthZ_Some_range _ _ _ Eb) as Hb. change (lenZ (twins X Y)) with 2%Z in Hb. replace (nranks (un_dec false false)) with 2%Z in Hr by reflexivity.
  assert (b = 0 \/ b = 1)%Z as [->| ->] by lia; injection Eb as <-; assert (r = 0 \/ r = 1)%Z as [->| ->] by lia; reflexivity.
Qed.
Lemma un_no_neumann : no_normal_neumann (un_mesh false false) (un_types false false).
Proof. intros f Hf'. unfold un_types. assert (f = 0 \/ f = 1)%Z as [->| ->] by (rewrite un_dim in Hf'; lia); split; vm_compute; discriminate. Qed.
Lemma un_undriven : undriven (un_mesh false false) (un_types false false) (fun _ _ => 0).
Proof. intros f loc Hf' Hl. unfold un_types. split; [destruct (loc <? 2)%Z; discriminate|reflexivity]. Qed.

Theorem coincident_bodies_refuted : forall name K w U0 p0 refp, getKernel name = Ok (K, w) ->
  let m := un_mesh false false in let D := un_dec false false in let bodies := twins [4; 4] [13 / 4; 9 / 2] in let P := mkPar (1/100) 1 1 [3/2; -1/2] (1/2) [1/2] refp in
  let conv := convection m D in let nf := n_forces m bodies in
  exists O X x0 vs ps fs1 fs2 x1 x2 l1 l2,
    d_init m D P (un_types false false) (fun _ _ => 0) name bodies 0 0 U0 p0 = Ok (O, X, x0) /\
    exact_solver (n_velocity m) (o_A O) vs /\ exact_solver (n_pressure m) (o_DBNG O) ps /\ exact_solver nf (di_EBNH X) fs1 /\ exact_solver nf (di_EBNH X) fs2 /\
    run_steps (d_advance m D P O X nf conv (d_assembleRHSForces m X) vs ps fs1) 1 x0 = Ok x1 /\
    run_steps (d_advance m D P O X nf conv (d_assembleRHSForces m X) vs ps fs2) 1 x0 = Ok x2 /\
    reported m D bodies (1/100) (x_f x1) l1 /\ reported m D bodies (1/100) (x_f x2) l2 /\
    column l1 1 <> column l2 1 /\ column l1 1 + column l1 3 = column l2 1 + column l2 3.
Proof.
  intros name K w U0 p0 refp HK m D bodies P conv nf.
  pose proof (un_setup false false) as Hs. pose proof (un_fits false false) as Hb. pose proof (setup_facts _ _ Hs) as F.
  pose proof (twins_ok [4; 4] [13 / 4; 9 / 2] eq_refl eq_refl) as Hbo.
  assert (W : (w <= 3)%Z) by (destruct (getKernel_cases _ _ _ HK) as [(_ & _ & -> & _)|(_ & _ & -> & _)]; lia).
  assert (T : forall vs ps fs, exists O X x0 x, d_init m D P (un_types false false) (fun _ _ => 0) name bodies 0 0 U0 p0 = Ok (O, X, x0) /\
     run_steps (d_advance m D P O X nf conv (d_assembleRHSForces m X) vs ps fs) 1 x0 = Ok x).
  { intros vs ps fs. apply (decoupled_never_fails m D P (un_types false false) (fun _ _ => 0) name bodies K w conv vs ps fs 0 0 U0 p0 1 Hs Hb Hbo HK).
    - cbn. lia.
    - intros b i X Hl. apply twins_located in Hl. destruct Hl as (_ & [(_ & ->)|(_ & ->)]); apply un_reach; auto; lra.
    - apply twins_ranks.
    - intros h B x HB. exact (convection_total m D _ _ _ B x Hs Hb HB). }
  destruct (T (fun _ _ _ => 0) (fun _ _ _ => 0) (fun _ _ _ => 0)) as (O & X & x0 & _ & HI & _).
  destruct (d_init_inv m D P (un_types false false) _ Hs Hb _ _ _ _ _ _ _ _ _ HI) as (B & HB & _ & EXB & Ex0).
  destruct (extra_inv m D P _ _ _ _ _ EXB) as (E & H & BN & EI & EB & EXX).
  assert (Hnf : nf = 8%Z) by reflexivity.
  assert (Col : forall id, (0 <= id < n_velocity m)%Z -> H id 0%Z = H id 2%Z).
  { intros id Hid. destruct (velocity_ids m D id F Hid) as (f & p & Ei).
    assert (R0 : nthZ (body_layout (nranks D) (m_dim m) (map fst bodies)) 0 = Some (0, 0, 0)%Z) by reflexivity.
    assert (R2 : nthZ (body_layout (nranks D) (m_dim m) (map fst bodies)) 2 = Some (1, 0, 0)%Z) by reflexivity.
    assert (L0 : located bodies 0 0 [4; 4]) by (apply twins_located; auto). assert (L1 : located bodies 1 0 [4; 4]) by (apply twins_located; auto).
    rewrite (proj1 (ib_entries m D unit_h Hs name K w HK bodies (uniform_is_around m D unit_h w bodies Hs (un_uniform false false)) B _ _ _ Hb HB (un_wide false false w W) Hbo E H EI 0 0 0 0 [4; 4] id f p R0 L0 Ei)).
    rewrite (proj1 (ib_entries m D unit_h Hs name K w HK bodies (uniform_is_around m D unit_h w bodies Hs (un_uniform false false)) B _ _ _ Hb HB (un_wide false false w W) Hbo E H EI 2 1 0 0 [4; 4] id f p R2 L1 Ei)). reflexivity. }
  set (e := fun i => if (i =? 0)%Z then 1 else if (i =? 2)%Z then -1 else 0 : R).
  assert (Ker : forall r, mvec nf (di_EBNH X) e r = 0).
  { intros r. rewrite EXX. cbn [di_EBNH]. rewrite mvec_mmul. apply sumR_zero. intros id Hid. apply zrange_In in Hid.
    rewrite (bng_of (n_velocity m) nf BN _ _ _ H e id EB Hid).
    assert (Z0 : mvec nf H e id = 0). { rewrite Hnf. unfold mvec, zsum. change (zrange 0 8) with [0; 1; 2; 3; 4; 5; 6; 7]%Z. unfold e. cbn [sumR Z.eqb Pos.eqb]. rewrite (Col id Hid). ring. }
    rewrite Z0. ring. }
  destruct (exact_exists (n_velocity m) (o_A O) (nv_nonneg m D Hs)) as (vs & Hv).
  destruct (exact_exists (n_pressure m) (o_DBNG O) ltac:(pose proof (np_pos m D Hs); lia)) as (ps & Hp).
  destruct (exact_exists nf (di_EBNH X) ltac:(lia)) as (fs & Hf).
  set (fs2 := fun g b i => fs g b i + 1 * e i).
  assert (Hf2 : exact_solver nf (di_EBNH X) fs2).
  { intros g b Hx i Hi. transitivity (mvec nf (di_EBNH X) (fs g b) i + 1 * mvec nf (di_EBNH X) e i); [exact (mvec_axpy nf (di_EBNH X) (fs g b) 1 e i)|]. rewrite Ker, (Hf g b Hx i Hi). ring. }
  destruct (T vs ps fs) as (O1 & X1 & y1 & x1 & HI1 & E1). rewrite HI in HI1. injection HI1 as <- <- <-.
  destruct (T vs ps fs2) as (O2 & X2 & y2 & x2 & HI2 & E2). rewrite HI in HI2. injection HI2 as <- <- <-.
  set (line := fun f : vec => (1 / 100) :: flat_map (fun b => match nthZ bodies b with
       | Some bc => map (fun c => - zsum (fun i => f (4 * i + 2 * b + c)%Z) 0 (b_nPts (fst bc))) (zrange 0 (m_dim m)) | None => [] end) (zrange 0 (lenZ bodies))).
  assert (Rep : forall f, reported m D bodies (1 / 100) f (line f)).
  { intros f. exists (fun b i c => f (4 * i + 2 * b + c)%Z). split; [|reflexivity]. intros row b i c Hr. unfold bodies, m, D in Hr. rewrite twins_rows in Hr.
    pose proof (nthZ_Some_range _ _ _ Hr) as Rg. match type of Rg with (0 <= _ < ?n)%Z => change n with 8%Z in Rg end.
    assert (row = 0 \/ row = 1 \/ row = 2 \/ row = 3 \/ row = 4 \/ row = 5 \/ row = 6 \/ row = 7)%Z as Q by lia.
    repeat destruct Q as [->|Q]; try (subst row); injection Hr as <- <- <-; reflexivity. }
  assert (C1 : forall f, column (line f) 1 = - (f 0%Z + f 4%Z)) by (intros f; unfold column; change (nthZ (line f) 1) with (Some (- (f 0%Z + (f 4%Z + 0)))); cbv iota; ring).
  assert (C3 : forall f, column (line f) 3 = - (f 2%Z + f 6%Z)) by (intros f; unfold column; change (nthZ (line f) 3) with (Some (- (f 2%Z + (f 6%Z + 0)))); cbv iota; ring).
  exists O, X, x0, vs, ps, fs, fs2, x1, x2, (line (x_f x1)), (line (x_f x2)).
  split; [exact HI|]. split; [exact Hv|]. split; [exact Hp|]. split; [exact Hf|]. split; [exact Hf2|]. split; [exact E1|]. split; [exact E2|]. split; [apply Rep|]. split; [apply Rep|].
  cbn [run_steps bind] in E1, E2.
  destruct (d_advance_inv _ _ _ _ _ _ _ _ _ _ _ _ _ E1) as (r1 & w1 & b1 & R1 & Df1 & _ & _ & _ & _ & _ & Ef1 & _). cbv zeta in *.
  destruct (d_advance_inv _ _ _ _ _ _ _ _ _ _ _ _ _ E2) as (r2 & w2 & b2 & R2 & Df2 & _ & _ & _ & _ & _ & Ef2 & _). cbv zeta in *.
  rewrite R1 in R2. injection R2 as <- <-.
  assert (Ed : forall i, x_f x2 i = x_f x1 i + e i).
  { intros i. rewrite Ef1, Ef2. unfold vaxpy. rewrite Df1, Df2. unfold fs2. ring. }
  rewrite !C1, !C3, !Ed. unfold e. cbn [Z.eqb Pos.eqb]. split; lra.
Qed.
Print Assumptions coincident_bodies_refuted.

(** * The hypotheses can be met *)
(** The 8 x 8 box with walls at rest, on two ranks, Adams-Bashforth convection
    and Crank-Nicolson diffusion, pinned or not, any initial state and any
    kernel: two points far apart, fixed, or moving up and down in opposite
    directions. *)
Definition rocking (t : R) : list (list (list R)) := [[[2; 4 + sin t]; [6; 4 - sin t]]].
Definition rocking_velocity (t : R) (b i c : Z) : R := if (c =? 0)%Z then 0 else if (i =? 0)%Z then cos t else - cos t.
Definition rocking_motion : motion :=
  mkMotion (fun t _ => Ok (rocking t)) (fun t _ => Ok (fun row => if (row =? 1)%Z then cos t else if (row =? 3)%Z then - cos t else 0)).
Lemma rocking_prescribed : prescribed (un_mesh false false) (un_dec false false) (pair [2; 4] [6; 4]) rocking_motion rocking rocking_velocity.
Proof.
  intros t. split; [|split].
  - repeat constructor.
  - reflexivity.
  - intros v. eexists. split; [reflexivity|]. intros row b i c Hr. rewrite pair_rows in Hr.
    pose proof (nthZ_Some_range _ _ _ Hr) as Rg. match type of Rg with (0 <= _ < ?n)%Z => change n with 4%Z in Rg end.
    assert (row = 0 \/ row = 1 \/ row = 2 \/ row = 3)%Z as [->|[->|[->| ->]]] by lia; injection Hr as <- <- <-; reflexivity.
Qed.
Lemma rocking_far name K w y y' : getKernel name = Ok (K, w) -> far_apart (un_mesh false false) unit_h (radius name) (pair [2; y] [6; y']).
Proof.
  intros HK b i X b' i' X' Hl Hl' Hne. assert (radius name <= 2) by (destruct (getKernel_cases _ _ _ HK) as [(_ & _ & _ & ->)|(_ & _ & _ & ->)]; lra).
  exists 0%Z. rewrite un_dim. split; [lia|]. apply pair_located in Hl. apply pair_located in Hl'. unfold unit_h.
  destruct Hl as (-> & [(-> & ->)|(-> & ->)]), Hl' as (-> & [(-> & ->)|(-> & ->)]); try (exfalso; apply Hne; reflexivity); rewrite !xc0; [rewrite Rabs_left by lra|rewrite Rabs_right by lra]; lra.
Qed.
Lemma rocking_clear name K w y y' : getKernel name = Ok (K, w) -> 2 <= y <= 6 -> 2 <= y' <= 6 -> forall b i X, located (pair [2; y] [6; y']) b i X -> clear (un_mesh false false) unit_h (radius name) X.
Proof.
  intros HK Hy Hy' b i X Hl d Hd. assert (radius name <= 2) by (destruct (getKernel_cases _ _ _ HK) as [(_ & _ & _ & ->)|(_ & _ & _ & ->)]; lra).
  rewrite un_dim in Hd. destruct (un_box false false d) as [-> ->]. unfold unit_h. apply pair_located in Hl.
  destruct Hl as (_ & [(_ & ->)|(_ & ->)]); assert (d = 0 \/ d = 1)%Z as [->| ->] by lia; rewrite ?xc0, ?xc1; lra.
Qed.
Lemma rocking_reach w y y' : 2 <= y <= 6 -> 2 <= y' <= 6 -> forall b i X, located (pair [2; y] [6; y']) b i X ->
  inside_domain (un_mesh false false) X /\ in_reach (un_mesh false false) (un_types false false) w X.
Proof.
  intros Hy Hy' b i X Hl. apply pair_located in Hl. split.
  - intros d Hd. rewrite un_dim in Hd. destruct (un_box false false d) as [-> ->]. destruct Hl as (_ & [(_ & ->)|(_ & ->)]); assert (d = 0 \/ d = 1)%Z as [->| ->] by lia; rewrite ?xc0, ?xc1; lra.
  - intros d k Hd Ht. exfalso. unfold un_types in Ht. destruct (d <? 2)%Z; discriminate Ht.
Qed.
Lemma sin_bounds t : 2 <= 4 + sin t <= 6 /\ 2 <= 4 - sin t <= 6.
Proof. pose proof (SIN_bound t). lra. Qed.

Example indep_case : forall name K w U0 p0 k refp, getKernel name = Ok (K, w) ->
  let m := un_mesh false false in let D := un_dec false false in let bodies := pair [2; 4] [6; 4] in let P := mkPar (1/100) 1 1 [3/2; -1/2] (1/2) [1/2] refp in
  let types := un_types false false in let values := fun _ _ => 0 in let conv := convection m D in let nf := n_forces m bodies in
  mesh_setup m D /\ bc_fits m types /\ bodies_ok m D bodies /\ periodic_min m 3 /\ no_normal_neumann m types /\ undriven m types values /\
  uniform_around m unit_h w bodies /\ wide_enough m w /\ (forall b i X, located bodies b i X -> clear m unit_h (radius name) X) /\ far_apart m unit_h (radius name) bodies /\
  prescribed m D bodies rocking_motion rocking rocking_velocity /\
  p_bn P = 1%Z /\ 0 < p_dt P /\ 0 <= p_dimp P * p_nu P /\
  (exists O s0 vs ps s, ib_init m D P types values name bodies 0 0 U0 p0 = Ok (O, s0) /\ exact_solver (n_velocity m) (o_A (ib_ns O)) vs /\ exact_solver (ib_n O) (o_DBNG (ib_ns O)) ps /\
     run_steps (ib_advance m D P O conv vs ps) k s0 = Ok s) /\
  (exists O X x0 vs ps fs x, d_init m D P types values name bodies 0 0 U0 p0 = Ok (O, X, x0) /\ exact_solver (n_velocity m) (o_A O) vs /\ exact_solver (n_pressure m) (o_DBNG O) ps /\ exact_solver nf (di_EBNH X) fs /\
     forces_felt m nf X /\ run_steps (d_advance m D P O X nf conv (d_assembleRHSForces m X) vs ps fs) k x0 = Ok x) /\
  (exists O s0, r_init m D P types values name bodies 0 0 U0 p0 = Ok (O, s0) /\
     (forall j B X, (1 <= j <= k)%nat -> (exists hist, boundary_after m D types values hist B) ->
        createExtraOperators m D B P O name (bodies_at bodies (rocking (0 + INR j * p_dt P))) = Ok X -> forces_felt m nf X) /\
     exists vs ps, exact_solver (n_velocity m) (o_A O) vs /\ exact_solver (n_pressure m) (o_DBNG O) ps /\
       exists fs s, (forall A, exact_solver nf A (fs A)) /\ run_steps (r_advance m D P O name rocking_motion conv vs ps fs) k s0 = Ok s).
Proof.
  intros name K w U0 p0 k refp HK m D bodies P types values conv nf.
  pose proof (un_setup false false) as Hs. pose proof (un_fits false false) as Hb. pose proof (setup_facts _ _ Hs) as F. pose proof (un_uniform false false) as Hu.
  pose proof (pair_ok false false [2; 4] [6; 4] eq_refl eq_refl) as Hbo.
  assert (W : (w <= 3)%Z) by (destruct (getKernel_cases _ _ _ HK) as [(_ & _ & -> & _)|(_ & _ & -> & _)]; lia).
  assert (Cv : forall hist B x, boundary_after m D types values ([OpICs U0] ++ hist) B -> is_ok (conv B x)) by (intros h B x HB; exact (convection_total m D _ _ _ B x Hs Hb HB)).
  split; [exact Hs|]. split; [exact Hb|]. split; [exact Hbo|]. split; [apply un_min; lia|]. split; [exact un_no_neumann|]. split; [exact un_undriven|].
  split; [exact (uniform_is_around m D unit_h w _ Hs Hu)|]. split; [now apply un_wide|]. split; [apply (rocking_clear name K w); auto; lra|]. split; [now apply (rocking_far name K w)|]. split; [exact rocking_prescribed|].
  split; [reflexivity|]. split; [cbn; lra|]. split; [cbn; lra|]. split; [|split].
  - assert (T : forall vs ps, exists O s0 s, ib_init m D P types values name bodies 0 0 U0 p0 = Ok (O, s0) /\ run_steps (ib_advance m D P O conv vs ps) k s0 = Ok s).
    { intros vs ps. apply (coupled_never_fails m D P types values name bodies K w conv vs ps 0 0 U0 p0 k Hs Hb Hbo HK); [cbn; lia|apply rocking_reach; lra|apply pair_ranks|exact Cv]. }
    destruct (T (fun _ _ _ => 0) (fun _ _ _ => 0)) as (O & s0 & _ & HI & _).
    destruct (ib_init_inv _ _ _ _ _ _ _ Hs Hb _ _ _ _ _ _ HI) as (B0 & HB0 & EO & _).
    destruct (ib_createOperators_inv _ _ _ _ _ _ _ EO) as (d & g & l & E & H & BN & _ & _ & _ & _ & _ & EOps).
    assert (En : ib_n O = (n_pressure m + n_forces m bodies)%Z) by (rewrite EOps; reflexivity). assert (Hf : n_forces m bodies = 4%Z) by reflexivity.
    destruct (exact_exists (n_velocity m) (o_A (ib_ns O)) (nv_nonneg m D Hs)) as (vs & Hv).
    destruct (exact_exists (ib_n O) (o_DBNG (ib_ns O)) ltac:(pose proof (np_pos m D Hs); lia)) as (ps & Hp).
    destruct (T vs ps) as (O' & s0' & s & HI' & H2). rewrite HI in HI'. injection HI' as <- <-. exists O, s0, vs, ps, s. auto.
  - assert (T : forall vs ps fs, exists O X x0 x, d_init m D P types values name bodies 0 0 U0 p0 = Ok (O, X, x0) /\
      run_steps (d_advance m D P O X nf conv (d_assembleRHSForces m X) vs ps fs) k x0 = Ok x).
    { intros vs ps fs. apply (decoupled_never_fails m D P types values name bodies K w conv vs ps fs 0 0 U0 p0 k Hs Hb Hbo HK); [cbn; lia|apply rocking_reach; lra|apply pair_ranks|exact Cv]. }
    destruct (T (fun _ _ _ => 0) (fun _ _ _ => 0) (fun _ _ _ => 0)) as (O & X & x0 & _ & HI & _).
    destruct (d_init_inv m D P types values Hs Hb _ _ _ _ _ _ _ _ _ HI) as (B & HB & _ & EXB & _).
    destruct (exact_exists (n_velocity m) (o_A O) (nv_nonneg m D Hs)) as (vs & Hv).
    destruct (exact_exists (n_pressure m) (o_DBNG O) ltac:(pose proof (np_pos m D Hs); lia)) as (ps & Hp).
    destruct (exact_exists nf (di_EBNH X) ltac:(unfold nf; assert (Hf : n_forces m bodies = 4%Z) by reflexivity; lia)) as (fs & Hf).
    destruct (T vs ps fs) as (O' & X' & x0' & x & HI' & H2). rewrite HI in HI'. injection HI' as <- <- <-. exists O, X, x0, vs, ps, fs, x.
    split; [exact HI|]. split; [exact Hv|]. split; [exact Hp|]. split; [exact Hf|]. split; [|exact H2].
    apply (far_apart_points_are_felt m D P types values O name bodies unit_h K w [OpICs U0] B X Hs (uniform_is_around m D unit_h w _ Hs Hu) Hbo HK Hb HB (un_wide false false w W)); auto.
    + apply (rocking_clear name K w); auto; lra.
    + now apply (rocking_far name K w).
  - pose proof rocking_prescribed as Hmo.
    assert (T : forall vs ps fs, exists O s0 s, r_init m D P types values name bodies 0 0 U0 p0 = Ok (O, s0) /\ run_steps (r_advance m D P O name rocking_motion conv vs ps fs) k s0 = Ok s).
    { intros vs ps fs. apply (moving_never_fails m D P types values name bodies rocking_motion rocking rocking_velocity conv vs ps fs K w 0 0 U0 p0 k Hs Hb Hbo Hmo HK);
        [cbn; lia|apply rocking_reach; lra| |apply pair_ranks|exact Cv].
      intros j b i X _ Hl. exact (rocking_reach w (4 + sin (0 + INR j * p_dt P)) (4 - sin (0 + INR j * p_dt P)) (proj1 (sin_bounds _)) (proj2 (sin_bounds _)) b i X Hl). }
    destruct (T (fun _ _ _ => 0) (fun _ _ _ => 0) (fun _ _ _ _ => 0)) as (O & s0 & _ & HI & _). exists O, s0. split; [exact HI|]. split.
    + intros j B X _ (hist & HB) EX. set (t := 0 + INR j * p_dt P) in *.
      apply (far_apart_points_are_felt m D P types values O name (pair [2; 4 + sin t] [6; 4 - sin t]) unit_h K w hist B X Hs (uniform_is_around m D unit_h w _ Hs Hu)
               (pair_ok false false [2; 4 + sin t] [6; 4 - sin t] eq_refl eq_refl) HK Hb HB (un_wide false false w W)); auto.
      * apply (rocking_clear name K w); auto; apply sin_bounds.
      * now apply (rocking_far name K w).
    + destruct (exact_exists (n_velocity m) (o_A O) (nv_nonneg m D Hs)) as (vs & Hv).
      destruct (exact_exists (n_pressure m) (o_DBNG O) ltac:(pose proof (np_pos m D Hs); lia)) as (ps & Hp).
      exists vs, ps. split; [exact Hv|]. split; [exact Hp|]. destruct (exact_family nf ltac:(unfold nf; assert (Hf : n_forces m bodies = 4%Z) by reflexivity; lia)) as (fs & Hf). exists fs.
      destruct (T vs ps fs) as (O' & s0' & s & HI' & H2). rewrite HI in HI'. injection HI' as <- <-. exists s. split; [exact Hf|exact H2].
Qed.
