(** Theorems about the total momentum (C73). *)
From Coq Require Import Lia ZifyBool String List Lra.
Import ListNotations.
From Verif Require Import Prelude ZSum RSum TypesModel GridModel GridSpec GridProof MeshProof
  IndexModel IndexSpec IndexProof BoundaryModel BoundarySpec BoundaryProof OperatorModel OperatorSpec
  MatModel BnModel NSModel NSSpec NSProof NSPin NSTotal NSProps LinAlg ConvModel ConvSpec ConvProof ConvValue ConvTotal ConvProps
  EnergySpec EnergyProof EnergyRun EnergyProps DriverModel DriverSpec DriverProps BodyModel BodySpec DeltaModel DeltaSpec DeltaProof DeltaSum DeltaKernel DeltaProps
  IbpmModel IbpmSpec IbpmProof IbpmMove IbpmOsc IbpmProps MoveProps UniqueProof UniqueProps ExampleSetup WorkProps
  IbOutModel IbOutSpec IbOutLines IbOutProps MomProof MomRun MomMain.
Local Open Scope R_scope.

(** C73. In a periodic box, whatever the mesh, the explicit and implicit schemes,
    the order of the approximate inverse and the pressure solver, every number
    of steps leaves the total momentum in each direction as it was. *)
Theorem momentum_conserved : forall m D P types values t0 n0 U0 p0 O s0 vs ps k s f,
  mesh_setup m D -> bc_fits m types -> (forall d, (0 <= d < m_dim m)%Z -> periodic_dir m d = true) -> periodic_min m 3 ->
  (0 <= f < m_dim m)%Z -> 0 < p_dt P -> 0 <= p_dimp P * p_nu P ->
  ns_init m D P types values t0 n0 U0 p0 = Ok (O, s0) -> exact_solver (n_velocity m) (o_A O) vs ->
  ns_steps m D P O (convection m D) vs ps k s0 = Ok s ->
  integral m D f (s_U s) = integral m D f U0.
Proof.
  intros m D P types values t0 n0 U0 p0 O s0 vs ps k s f Hs Hb Hp Hm Hf Hdt Hc HI Hv Hk.
  exact (proj2 (ns_momentum m D P types values f Hs Hb Hp Hm Hf Hdt Hc t0 n0 U0 p0 O s0 vs ps k s HI Hv Hk)).
Qed.
Print Assumptions momentum_conserved.

(** C73. With bodies, a step of the coupled solver adds dt times the total of
    the force that the bodies spread on the fluid. *)
Theorem coupled_momentum_balance : forall m D P types values name bodies t0 n0 U0 p0 O s0 vs ps k s s2 f,
  mesh_setup m D -> bc_fits m types -> bodies_ok m D bodies -> (forall d, (0 <= d < m_dim m)%Z -> periodic_dir m d = true) -> periodic_min m 3 ->
  (0 <= f < m_dim m)%Z -> 0 < p_dt P -> 0 <= p_dimp P * p_nu P ->
  ib_init m D P types values name bodies t0 n0 U0 p0 = Ok (O, s0) -> exact_solver (n_velocity m) (o_A (ib_ns O)) vs ->
  run_steps (ib_advance m D P O (convection m D) vs ps) k s0 = Ok s -> ib_advance m D P O (convection m D) vs ps s = Ok s2 ->
  exists B E H, boundary_after m D types values [OpICs U0] B /\ ib_operators m D B name bodies = Ok (E, H) /\
    integral m D f (s_U s2) = integral m D f (s_U s) + p_dt P * integral m D f (mvec (n_forces m bodies) H (nest_sub (ib_lay O) 1 (s_p s2))).
Proof.
  intros m D P types values name bodies t0 n0 U0 p0 O s0 vs ps k s s2 f Hs Hb Hbo Hp Hm Hf Hdt Hc HI Hv Hk Ha.
  exact (proj2 (ib_momentum m D P types values f Hs Hb Hp Hm Hf Hdt Hc name bodies Hbo t0 n0 U0 p0 O s0 vs ps k s HI Hv Hk) s2 Ha).
Qed.
Print Assumptions coupled_momentum_balance.

(** C73. On a uniform mesh, with the points of the bodies a kernel radius away
    from the periodic boundaries, what a whole run records in the forces file is
    what the fluid lost: the final momentum is the initial one minus dt times
    the sum of the forces of all lines and bodies. Coupled solver: *)
Theorem coupled_forces_are_momentum_lost : forall m D P types values name bodies h K w t0 U0 p0 vs ps fuel conf mon d s2 d2 ls f,
  mesh_setup m D -> bc_fits m types -> bodies_ok m D bodies -> (forall d, (0 <= d < m_dim m)%Z -> periodic_dir m d = true) -> periodic_min m 3 ->
  uniform m h -> getKernel name = Ok (K, w) -> wide_enough m w -> (forall b i X, located bodies b i X -> clear m h (radius name) X) ->
  (0 <= f < m_dim m)%Z -> 0 < p_dt P -> 0 <= p_dimp P * p_nu P -> c_nstart conf = 0%Z ->
  (forall O s0, ib_init m D P types values name bodies t0 0 U0 p0 = Ok (O, s0) -> exact_solver (n_velocity m) (o_A (ib_ns O)) vs) ->
  ib_main fuel conf m D P types values name bodies t0 U0 p0 mon (convection m D) vs ps d = Ok (Some (s2, d2, ls)) ->
  integral m D f (s_U s2) = integral m D f U0 - p_dt P * sumR (fun l => zsum (fun b => column l (1 + b * m_dim m + f)) 0 (lenZ bodies)) ls.
Proof.
  intros m D P types values name bodies h K w t0 U0 p0 vs ps fuel conf mon d s2 d2 ls f Hs Hb Hbo Hp Hm Hu HK Hw Hcl Hf Hdt Hc Hn Hv H.
  exact (coupled_impulse m D P types values f Hs Hb Hp Hm Hf Hdt Hc name bodies Hbo h K w Hu HK Hw t0 U0 p0 vs ps fuel conf mon d s2 d2 ls Hcl Hn Hv H).
Qed.
Print Assumptions coupled_forces_are_momentum_lost.

(** Decoupled solver: *)
Theorem decoupled_forces_are_momentum_lost : forall m D P types values name bodies h K w t0 U0 p0 vs ps fs fuel conf mon d x2 d2 ls f,
  mesh_setup m D -> bc_fits m types -> bodies_ok m D bodies -> (forall d, (0 <= d < m_dim m)%Z -> periodic_dir m d = true) -> periodic_min m 3 ->
  uniform m h -> getKernel name = Ok (K, w) -> wide_enough m w -> (forall b i X, located bodies b i X -> clear m h (radius name) X) ->
  (0 <= f < m_dim m)%Z -> 0 < p_dt P -> 0 <= p_dimp P * p_nu P -> c_nstart conf = 0%Z ->
  (forall O X x0, d_init m D P types values name bodies t0 0 U0 p0 = Ok (O, X, x0) -> exact_solver (n_velocity m) (o_A O) vs) ->
  d_main fuel conf m D P types values name bodies t0 U0 p0 mon (convection m D) vs ps fs d = Ok (Some (x2, d2, ls)) ->
  integral m D f (s_U (x_ns x2)) = integral m D f U0 - p_dt P * sumR (fun l => zsum (fun b => column l (1 + b * m_dim m + f)) 0 (lenZ bodies)) ls.
Proof.
  intros m D P types values name bodies h K w t0 U0 p0 vs ps fs fuel conf mon d x2 d2 ls f Hs Hb Hbo Hp Hm Hu HK Hw Hcl Hf Hdt Hc Hn Hv H.
  exact (decoupled_impulse m D P types values f Hs Hb Hp Hm Hf Hdt Hc name bodies Hbo h K w Hu HK Hw t0 U0 p0 vs ps fs fuel conf mon d x2 d2 ls Hcl Hn Hv H).
Qed.
Print Assumptions decoupled_forces_are_momentum_lost.

(** Moving bodies: *)
Theorem moving_forces_are_momentum_lost : forall m D P types values name bodies mo pos vel h K w t0 U0 p0 vs ps fs fuel conf mon d s2 d2 ls f,
  mesh_setup m D -> bc_fits m types -> bodies_ok m D bodies -> prescribed m D bodies mo pos vel -> (forall d, (0 <= d < m_dim m)%Z -> periodic_dir m d = true) -> periodic_min m 3 ->
  uniform m h -> getKernel name = Ok (K, w) -> wide_enough m w -> (forall t b i X, located (bodies_at bodies (pos t)) b i X -> clear m h (radius name) X) ->
  (0 <= f < m_dim m)%Z -> 0 < p_dt P -> 0 <= p_dimp P * p_nu P -> c_nstart conf = 0%Z ->
  (forall O s0, r_init m D P types values name bodies t0 0 U0 p0 = Ok (O, s0) -> exact_solver (n_velocity m) (o_A O) vs) ->
  r_main fuel conf m D P types values name bodies mo t0 U0 p0 mon (convection m D) vs ps fs d = Ok (Some (s2, d2, ls)) ->
  integral m D f (s_U (x_ns (r_x s2))) = integral m D f U0 - p_dt P * sumR (fun l => zsum (fun b => column l (1 + b * m_dim m + f)) 0 (lenZ bodies)) ls.
Proof.
  intros m D P types values name bodies mo pos vel h K w t0 U0 p0 vs ps fs fuel conf mon d s2 d2 ls f Hs Hb Hbo Hmo Hp Hm Hu HK Hw Hcl Hf Hdt Hc Hn Hv H.
  exact (moving_impulse m D P types values f Hs Hb Hp Hm Hf Hdt Hc name bodies Hbo h K w Hu HK Hw mo pos vel t0 U0 p0 vs ps fs fuel conf mon d s2 d2 ls Hmo Hcl Hn Hv H).
Qed.
Print Assumptions moving_forces_are_momentum_lost.

(** * The hypotheses can be met *)
Lemma un_periodic d : (0 <= d < m_dim (un_mesh true true))%Z -> periodic_dir (un_mesh true true) d = true.
Proof. rewrite un_dim. intros Hd. assert (d = 0 \/ d = 1)%Z as [->| ->] by lia; reflexivity. Qed.
Lemma convection_ok m D types values U0 : mesh_setup m D -> bc_fits m types ->
  forall hist B x, boundary_after m D types values ([OpICs U0] ++ hist) B -> is_ok (convection m D B x).
Proof.
  intros Hs Hb hist B x HB. destruct (conv_in_bounds m D types values (createConvection m D) _ B x Hs Hb (cs_new _ _ _ _) HB) as (y & C' & E).
  exists y. unfold convection. rewrite E. reflexivity.
Qed.
Lemma d_init_ns m D P types values name bodies t0 n0 U0 p0 O X x0 :
  d_init m D P types values name bodies t0 n0 U0 p0 = Ok (O, X, x0) -> exists s0, ns_init m D P types values t0 n0 U0 p0 = Ok (O, s0).
Proof.
  intros H. unfold d_init in H. apply bind_ok_inv in H. destruct H as ([O' s0] & EI & H). apply bind_ok_inv in H. destruct H as (X' & EX & H). injection H as <- <- <-.
  exists s0. exact EI.
Qed.
(** The periodic 8 x 8 box on two ranks, Adams-Bashforth convection and
    Crank-Nicolson diffusion, three terms of the approximate inverse, any
    initial velocity: a run without bodies, and five steps with two points that
    are fixed (coupled and decoupled solvers) or oscillate. *)
Example momentum_case : forall name K w U0 p0 k, getKernel name = Ok (K, w) ->
  let m := un_mesh true true in let D := un_dec true true in let bodies := pair [4; 4] [13 / 4; 9 / 2] in
  let P := mkPar (1/100) 1 3 [3/2; -1/2] (1/2) [1/2] false in
  let Am := osc_Am 1 1 in let Um := osc_Um 1 Am in let mo := osc_motion (nranks D) 1 Am Um (default_body 2 2) [[4; 4]; [13 / 4; 9 / 2]] in
  let types := un_types true true in let values := fun _ _ => 0 in let conf := mkConf "o" "l" 0 5 1 3 in
  exists vs ps, mesh_setup m D /\ bc_fits m types /\ bodies_ok m D bodies /\ (forall d, (0 <= d < m_dim m)%Z -> periodic_dir m d = true) /\ periodic_min m 3 /\
    uniform m unit_h /\ wide_enough m w /\ (forall b i X, located bodies b i X -> clear m unit_h (radius name) X) /\
    (exists O s0 s, ns_init m D P types values 0 0 U0 p0 = Ok (O, s0) /\ exact_solver (n_velocity m) (o_A O) vs /\ ns_steps m D P O (convection m D) vs ps k s0 = Ok s) /\
    (forall O s0, ib_init m D P types values name bodies 0 0 U0 p0 = Ok (O, s0) -> exact_solver (n_velocity m) (o_A (ib_ns O)) vs) /\
    (forall O X x0, d_init m D P types values name bodies 0 0 U0 p0 = Ok (O, X, x0) -> exact_solver (n_velocity m) (o_A O) vs) /\
    (forall O s0, r_init m D P types values name bodies 0 0 U0 p0 = Ok (O, s0) -> exact_solver (n_velocity m) (o_A O) vs) /\
    (exists s2 d2 ls, ib_main 5 conf m D P types values name bodies 0 U0 p0 (fun _ => []) (convection m D) vs ps dsk0 = Ok (Some (s2, d2, ls))) /\
    (exists x2 d2 ls, d_main 5 conf m D P types values name bodies 0 U0 p0 (fun _ => []) (convection m D) vs ps ps dsk0 = Ok (Some (x2, d2, ls))) /\
    (exists pos vel, prescribed m D bodies mo pos vel /\ (forall t b i X, located (bodies_at bodies (pos t)) b i X -> clear m unit_h (radius name) X) /\
       exists s2 d2 ls, r_main 5 conf m D P types values name bodies mo 0 U0 p0 (fun _ => []) (convection m D) vs ps (fun _ => ps) dsk0 = Ok (Some (s2, d2, ls))).
Proof.
  intros name K w U0 p0 k HK m D bodies P Am Um mo types values conf. set (pos := osc_pos 1 Am [[4; 4]; [13 / 4; 9 / 2]]).
  destruct (delta_case true true name (fun _ _ => 0) U0 U0 1 K w HK) as (Hs & Hu & Hbo & Hb & Hw & Hcl & _). fold m D in Hs, Hb, Hbo, Hw, Hcl, Hu. fold bodies in Hbo, Hcl. fold types in Hb.
  pose proof (setup_facts _ _ Hs) as F.
  destruct (init_total m D P types values 0 0 U0 p0 F Hb ltac:(cbn; lia)) as (O & s0 & HI).
  destruct (exact_exists (n_velocity m) (o_A O) (nv_nonneg m D Hs)) as (vs & Hv). set (ps := fun _ b : vec => b). exists vs, ps.
  pose proof (convection_ok m D types values U0 Hs Hb) as Hc.
  destruct (steps_total m D P types values F Hb (convection m D) vs ps 0 0%Z U0 p0 O s0 k HI) as (s & Hk).
  { intros. eapply Hc; eauto. }
  assert (W : (w <= 3)%Z) by (destruct (getKernel_cases _ _ _ HK) as [(_ & _ & -> & _)|(_ & _ & -> & _)]; lia).
  destruct (oscillating_cylinder_motion m D 1 1 1 (default_body 2 2) [[4; 4]; [13 / 4; 9 / 2]] (un_dim _ _) Hbo) as (Hmo & _ & EUm). fold Am Um mo pos in Hmo.
  assert (HA : forall y, Rabs (Am * sin y) <= 1 / 4).
  { intros y. rewrite Rabs_mult. assert (Rabs (sin y) <= 1) by (apply Rabs_le, SIN_bound). assert (HP : 3 < PI) by (pose proof PI2_3_2; lra).
    assert (0 < Am <= 1 / 4).
    { unfold Am, osc_Am. assert (0 < / (2 * PI)) by (apply Rinv_0_lt_compat; lra). assert (/ (2 * PI) <= / 4) by (apply Rinv_le_contravar; lra). unfold Rdiv. lra. }
    rewrite (Rabs_right Am) by lra. pose proof (Rabs_pos (sin y)). nra. }
  assert (HL : forall tt b i X, located (bodies_at bodies (pos tt)) b i X -> exists x y, X = [x; y] /\ 3 <= x < 5 /\ 3 <= y < 5).
  { intros tt b i X Hl. change (bodies_at bodies (pos tt)) with (pair [4 - Am * sin (2 * PI * 1 * tt); 4] [13 / 4 - Am * sin (2 * PI * 1 * tt); 9 / 2]) in Hl.
    specialize (HA (2 * PI * 1 * tt)). pose proof (Rle_abs (Am * sin (2 * PI * 1 * tt))) as G1. pose proof (Rle_abs (- (Am * sin (2 * PI * 1 * tt)))) as G2. rewrite Rabs_Ropp in G2.
    apply pair_located in Hl. destruct Hl as (_ & [(_ & ->)|(_ & ->)]); eexists; eexists; (split; [reflexivity|]); split; lra. }
  assert (H1 : forall b i X, located bodies b i X -> inside_domain m X /\ in_reach m types w X).
  { intros b i X Hl. apply pair_located in Hl. destruct Hl as (_ & [(_ & ->)|(_ & ->)]); apply un_reach; auto; lra. }
  assert (H2 : forall n j b i X, (1 <= j)%Z -> (j <= n)%Z -> located (bodies_at bodies (pos (0 + IZR j * p_dt P))) b i X -> inside_domain m X /\ in_reach m types w X).
  { intros n j b i X _ _ Hl. destruct (HL _ _ _ _ Hl) as (x & y & -> & Hx & Hy). now apply un_reach. }
  pose proof (pair_ranks true true [4; 4] [13 / 4; 9 / 2]) as Hrk.
  destruct (forces_runs_complete m D P types values name bodies 0 U0 p0 (convection m D) vs ps ps mo pos (osc_velocity 1 Um) (fun _ => ps) K w conf 5 dsk0 Hs Hb Hbo HK ltac:(cbn; lia) H1 Hrk Hc
    ltac:(reflexivity) ltac:(discriminate) ltac:(discriminate) ltac:(cbn; lia)) as (A1 & A2 & A3). specialize (A3 Hmo (H2 _)).
  split; [exact Hs|]. split; [exact Hb|]. split; [exact Hbo|]. split; [exact un_periodic|]. split; [apply un_min_all|]. split; [exact Hu|]. split; [exact Hw|]. split; [exact Hcl|].
  assert (HD : forall O X x0, d_init m D P types values name bodies 0 0 U0 p0 = Ok (O, X, x0) -> exact_solver (n_velocity m) (o_A O) vs).
  { intros O' X x0 H. destruct (d_init_ns _ _ _ _ _ _ _ _ _ _ _ _ _ _ H) as (s1 & E1). rewrite HI in E1. injection E1 as <- _. exact Hv. }
  split; [exists O, s0, s; auto|]. split; [|split; [exact HD|split; [|split; [apply A1|split; [apply A2|]]]]].
  - intros O' s0' HI'. destruct (ns_init_inv _ _ _ _ _ _ _ _ _ _ _ F Hb HI) as (B & HB & EO & _).
    destruct (createOperators_inv _ _ _ _ _ EO) as (d & g & l & BN & Ed & Eg & El & EB & EOO).
    destruct (ib_init_inv m D P types values name bodies Hs Hb _ _ _ _ _ _ HI') as (B' & HB' & EO' & _).
    destruct (ib_createOperators_inv m D P name bodies _ _ EO') as (d' & g' & l' & E & H & BN' & Ed' & Eg' & El' & EE' & EB' & EOO').
    rewrite (SymProof.createLaplacian_ok m D types values [OpICs U0] B F Hb HB) in El. injection El as <-.
    rewrite (SymProof.createLaplacian_ok m D types values [OpICs U0] B' F Hb HB') in El'. injection El' as <-.
    rewrite EOO'. cbn [ib_ns o_A]. rewrite EOO in Hv. exact Hv.
  - intros O' s0' HI'. destruct (r_init_inv m D P types values Hs Hb name bodies _ _ _ _ _ _ HI') as (B & X & x0 & _ & _ & HI2 & _). eapply HD; eauto.
  - exists pos, (osc_velocity 1 Um). split; [exact Hmo|]. split; [|apply A3].
    intros t b i X Hl. destruct (HL _ _ _ _ Hl) as (x & y & -> & Hx & Hy).
    assert (radius name <= 2) by (destruct (getKernel_cases _ _ _ HK) as [(_ & _ & _ & ->)|(_ & _ & _ & ->)]; lra).
    intros d Hd. unfold m in *. rewrite un_dim in Hd. destruct (un_box true true d) as [-> ->]. unfold unit_h.
    assert (d = 0 \/ d = 1)%Z as [->| ->] by lia; rewrite ?xc0, ?xc1; lra.
Qed.
