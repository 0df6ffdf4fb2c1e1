(** Theorems about the work of convection (C72). *)
From Coq Require Import Lia ZifyBool String List Lra.
Import ListNotations.
From Verif Require Import Prelude ZSum RSum TypesModel GridModel GridSpec GridProof MeshProof
  IndexModel IndexSpec IndexProof BoundaryModel BoundarySpec BoundaryProof OperatorModel OperatorSpec OperatorProof BStateProof LapProof DivProof GradProof
  AdjProof MatModel NSModel NSSpec NSProof NSPin NSTotal NSProps LinAlg ConvModel ConvSpec ConvProof ConvValue ConvTotal ConvProps DeltaSpec DecSpec DecConv
  EnergySpec EnergyProof EnergyRun BodyModel DeltaModel DeltaProof DeltaProps IbpmProps UniqueProof UniqueProps ExampleSetup WorkProof WorkRun.
Local Open Scope R_scope.

(** C72. On a uniform mesh whose boundaries nothing flows through (periodic or
    impermeable, with any tangential velocity), the power of the convection of a
    velocity without divergence is zero: convection moves kinetic energy from
    one place to another but creates and destroys none. *)
Theorem convection_does_no_work : forall m D types values C hist B x u y C' h,
  mesh_setup m D -> bc_fits m types -> impermeable m types values -> uniform m h ->
  conv_state m D types values C -> has_ics hist -> boundary_after m D types values hist B ->
  extends m D B x u -> (forall p, interior (m_n m 3) p -> net_flux m false u p = 0) ->
  convectionMult m D C B x = Ok (y, C') ->
  inner m D x y = 0.
Proof. exact no_work. Qed.
Print Assumptions convection_does_no_work.

(** C72. After every step of every run whose boundaries are at rest the velocity
    is such a velocity, ... *)
Theorem convection_of_run_does_no_work : forall m D P types values h t0 n0 U0 p0 O s0 vs ps conv k s y,
  mesh_setup m D -> bc_fits m types -> periodic_min m 3 -> no_normal_neumann m types -> undriven m types values -> uniform m h ->
  p_bn P = 1%Z -> 0 < p_dt P -> 0 <= p_dimp P * p_nu P ->
  ns_init m D P types values t0 n0 U0 p0 = Ok (O, s0) ->
  exact_solver (n_velocity m) (o_A O) vs -> exact_solver (n_pressure m) (o_DBNG O) ps ->
  ns_steps m D P O conv vs ps (S k) s0 = Ok s -> convection m D (s_bc s) (s_U s) = Ok y ->
  inner m D (s_U s) y = 0.
Proof. exact run_work. Qed.
Print Assumptions convection_of_run_does_no_work.

(** ... so that with explicit Euler convection and implicit diffusion the energy
    grows, in one step, by at most dt^2 times the kinetic energy of the
    convection: the error of the time scheme alone. *)
Theorem explicit_convection_energy : forall m D P types values h t0 n0 U0 p0 O s0 vs ps k s s2 y,
  mesh_setup m D -> bc_fits m types -> periodic_min m 3 -> no_normal_neumann m types -> undriven m types values -> uniform m h ->
  p_bn P = 1%Z -> 0 < p_dt P -> 0 <= p_dimp P * p_nu P -> p_cexp P = [1] -> p_dexp P = [] ->
  ns_init m D P types values t0 n0 U0 p0 = Ok (O, s0) ->
  exact_solver (n_velocity m) (o_A O) vs -> exact_solver (n_pressure m) (o_DBNG O) ps ->
  ns_steps m D P O (convection m D) vs ps (S k) s0 = Ok s -> advance m D P O (convection m D) vs ps s = Ok s2 ->
  convection m D (s_bc s) (s_U s) = Ok y ->
  stored_energy (n_pressure m) m D P O s2 <= stored_energy (n_pressure m) m D P O s + p_dt P * p_dt P * kinetic m D y.
Proof. exact run_growth. Qed.
Print Assumptions explicit_convection_energy.

(** * Stretched meshes *)
(** Two vortices on the 4 x 3 stretched periodic mesh: the velocities of the
    stream function that is 6 at two vertices. *)
Definition vortex (i j : Z) : R := if ((j =? 0) && ((i =? 0) || (i =? 2)))%Z then 6 else 0.
Definition two_vortices (f : Z) (p : pt) : R :=
  let m := ex_mesh true true in
  let '(i, j, _) := p in
  if (f =? 0)%Z then (vortex i j - vortex i ((j - 1) mod 3)) / wid m 3 1 j
  else - (vortex i j - vortex ((i - 1) mod 4) j) / wid m 3 0 i.
Definition vortices_vec (D : dec) : vec := fun id => match nthZ (packed_layout 2 D) id with Some (f, p) => two_vortices f p | None => 0 end.

(** Convection feeds energy into them. *)
Theorem convection_work_refuted : exists m D types values B x u y C',
  mesh_setup m D /\ bc_fits m types /\ impermeable m types values /\ boundary_after m D types values [OpICs x] B /\
  extends m D B x u /\ (forall p, interior (m_n m 3) p -> net_flux m false u p = 0) /\
  convectionMult m D (createConvection m D) B x = Ok (y, C') /\
  inner m D x y < 0.
Proof.
  set (m := ex_mesh true true). set (D := ex_dec true true). pose proof (ex_setup true true) as Hs. fold m D in Hs.
  pose proof (setup_facts _ _ Hs) as F. set (types := fun _ _ : Z => PERIODIC). set (x := vortices_vec D).
  assert (Hper : forall d, (0 <= d < 2)%Z -> periodic_dir m d = true) by (intros d Hd; assert (d = 0 \/ d = 1)%Z as [->| ->] by lia; reflexivity).
  assert (Hb : bc_fits m types).
  { intros f loc Hf Hl. split; [discriminate|]. split; [|reflexivity]. intros _. apply Hper. unfold loc_dir. unfold m in Hl. rewrite ex_dim in Hl. split; [apply Z.div_pos; lia|apply Z.div_lt_upper_bound; lia]. }
  assert (Hi : impermeable m types (fun _ _ => 0)) by (intros f loc Hf _ _ Hp; unfold m in Hf; rewrite ex_dim in Hf; rewrite Hper in Hp by lia; discriminate).
  pose proof (pure_after m D types (fun _ _ => 0) [OpICs x] F Hb) as HB.
  set (B := fun r => pure_state m D types (fun _ _ => 0) r [OpICs x]) in HB.
  destruct (extends_box_exists m D types _ _ _ x F Hb HB) as [u HX].
  destruct (conv_in_bounds m D types (fun _ _ => 0) (createConvection m D) [OpICs x] B x Hs Hb (cs_new _ _ _ _) HB) as (y & C' & E).
  set (v := fun f q => two_vortices f (image (m_n m f) q)).
  assert (Hv : forall f q, (0 <= f < m_dim m)%Z -> in_frame (m_n m f) q -> pc q 2 = 0%Z -> u f q = v f q).
  { intros f q Hf Hq Hq2. destruct HX as [(X1 & _) X4]. unfold v. rewrite X4; auto.
    - pose proof (image_in m D f q F Hf) as Hin. destruct (idx_spec m D f _ F Hf Hin) as [_ N]. rewrite (X1 _ _ _ N).
      unfold x, vortices_vec. change (m_dim m) with 2%Z in N. rewrite N. reflexivity.
    - apply has_image_pc. intros e He Ho. assert (e = 0 \/ e = 1 \/ e = 2)%Z as [->|[->| ->]] by lia; try apply Hper; try lia.
      rewrite Hq2 in Ho. assert (E2 : m_n m f 2 = 1%Z) by (apply (mf_flat _ _ F f); auto). unfold outside in Ho. rewrite E2 in Ho. cbn in Ho. discriminate. }
  assert (N : forall f d, (0 <= f < 2 \/ f = 3)%Z -> (0 <= d < 3)%Z -> m_n m f d = if (d =? 0)%Z then 4%Z else if (d =? 1)%Z then 3%Z else 1%Z).
  { intros f d Hf Hd. assert (f = 0 \/ f = 1 \/ f = 3)%Z as [->|[->| ->]] by lia; assert (d = 0 \/ d = 1 \/ d = 2)%Z as [->|[->| ->]] by lia; reflexivity. }
  assert (Hw : forall f q, (0 <= f < 2)%Z -> (-1 <= pc q 0 <= 4)%Z -> (-1 <= pc q 1 <= 3)%Z -> pc q 2 = 0%Z -> u f q = v f q).
  { intros f q Hf Q0 Q1 Q2. apply Hv; auto. apply in_frame_pc. intros e He. rewrite N by auto. assert (e = 0 \/ e = 1 \/ e = 2)%Z as [->|[->| ->]] by lia; cbn [Z.eqb Pos.eqb]; lia. }
  assert (Hcell : forall f p, (0 <= f < 2 \/ f = 3)%Z -> interior (m_n m f) p -> (0 <= pc p 0 < 4)%Z /\ (0 <= pc p 1 < 3)%Z /\ pc p 2 = 0%Z).
  { intros f p Hf Hp. rewrite interior_pc in Hp. pose proof (Hp 0%Z ltac:(lia)) as P0. pose proof (Hp 1%Z ltac:(lia)) as P1. pose proof (Hp 2%Z ltac:(lia)) as P2.
    rewrite N in P0, P1, P2 by (auto; lia). cbn [Z.eqb Pos.eqb] in P0, P1, P2. lia. }
  exists m, D, types, (fun _ _ => 0), B, x, u, y, C'.
  split; [exact Hs|]. split; [exact Hb|]. split; [exact Hi|]. split; [exact HB|]. split; [apply HX|]. split; [|split; [exact E|]].
  - intros p Hp. destruct (Hcell 3%Z p ltac:(lia) Hp) as (P0 & P1 & P2).
    assert (En : net_flux m false u p = net_flux m false v p).
    { unfold net_flux. apply zsum_ext. intros f Hf. change (m_dim m) with 2%Z in Hf. rewrite !Hw; auto; rewrite ?pc_shift2 by lia;
        assert (f = 0 \/ f = 1)%Z as [->| ->] by lia; cbn [Z.eqb Pos.eqb]; lia. }
    rewrite En. destruct p as [[i j] k]. cbn [pc Z.eqb Pos.eqb] in P0, P1, P2. subst k.
    assert (i = 0 \/ i = 1 \/ i = 2 \/ i = 3)%Z as Ci by lia. assert (j = 0 \/ j = 1 \/ j = 2)%Z as Cj by lia.
    destruct Ci as [->|[->|[->| ->]]], Cj as [->|[->| ->]]; unfold net_flux, v; cbv -[IZR Rplus Rminus Rmult Rinv Rdiv Ropp]; field.
  - rewrite (inner_integrals m D x y Hs).
    assert (I : forall f, (0 <= f < 2)%Z -> integral m D f (fun i => x i * y i) = sumR (fun p => point_volume m f p * (v f p * convection_at m v f p)) (points m f)).
    { intros f Hf. apply (integral_points m D f _ (fun p => v f p * convection_at m v f p) F Hf). intros id p Hid. destruct (velocity_row m D id f p F Hid) as (_ & Hp & _).
      destruct (Hcell f p (or_introl Hf) Hp) as (P0 & P1 & P2). f_equal.
      - destruct HX as [(X1 & _) _]. rewrite <- (X1 _ _ _ Hid). apply Hw; auto; lia.
      - rewrite (conv_value m D types _ _ _ B x u y C' id f p Hs Hb (cs_new _ _ _ _) HB HX E Hid).
        + unfold convection_at. apply zsum_ext. intros d Hd. change (m_dim m) with 2%Z in Hd. unfold momentum_flux.
          assert (f = 0 \/ f = 1)%Z as [->| ->] by lia; assert (d = 0 \/ d = 1)%Z as [->| ->] by lia; rewrite !Hw; try lia; auto; rewrite !pc_shift2 by lia; cbn [Z.eqb Pos.eqb]; lia.
        + intros d Hd Hne Hp'. change (m_dim m) with 2%Z in Hd. rewrite Hper in Hp' by auto. discriminate. }
    change (m_dim m) with 2%Z. unfold zsum. change (zrange 0 2) with [0; 1]%Z. cbn [sumR map fold_right].
    rewrite !I by lia. unfold v. cbv -[IZR Rplus Rminus Rmult Rinv Rdiv Ropp Rlt]. lra.
Qed.
Print Assumptions convection_work_refuted.

(** * The hypotheses can be met *)
Lemma un_min_all px py : periodic_min (un_mesh px py) 3.
Proof.
  intros f d Hf Hd Hp. rewrite un_dim in Hf, Hd. assert (f = 0 \/ f = 1)%Z as [->| ->] by lia; assert (d = 0 \/ d = 1)%Z as [->| ->] by lia;
    destruct px, py; first [discriminate Hp|vm_compute; congruence].
Qed.
(** The uniform 8 x 8 mesh on two ranks, with every combination of periodic
    directions and walls, pinned or not: any number of steps of a run from any
    initial velocity. *)
Example work_case : forall (px py refp : bool) U0 p0 k,
  let m := un_mesh px py in let D := un_dec px py in let P := mkPar (1/100) (1/100) 1 [1] 1 [] refp in
  exists O s0 vs ps s s2 y, mesh_setup m D /\ bc_fits m (un_types px py) /\ periodic_min m 3 /\ no_normal_neumann m (un_types px py) /\
    undriven m (un_types px py) (fun _ _ => 0) /\ uniform m unit_h /\ p_bn P = 1%Z /\ 0 < p_dt P /\ 0 <= p_dimp P * p_nu P /\
    ns_init m D P (un_types px py) (fun _ _ => 0) 0 0 U0 p0 = Ok (O, s0) /\
    exact_solver (n_velocity m) (o_A O) vs /\ exact_solver (n_pressure m) (o_DBNG O) ps /\
    ns_steps m D P O (convection m D) vs ps (S k) s0 = Ok s /\ advance m D P O (convection m D) vs ps s = Ok s2 /\
    convection m D (s_bc s) (s_U s) = Ok y /\
    (exists h B u C', impermeable m (un_types px py) (fun _ _ => 0) /\ has_ics h /\ boundary_after m D (un_types px py) (fun _ _ => 0) h B /\
       extends m D B (s_U s) u /\ (forall p, interior (m_n m 3) p -> net_flux m false u p = 0) /\
       convectionMult m D (createConvection m D) B (s_U s) = Ok (y, C')).
Proof.
  intros px py refp U0 p0 k m D P. pose proof (un_setup px py) as Hs. pose proof (setup_facts _ _ Hs) as F. pose proof (un_fits px py) as Hb.
  destruct (init_total m D P (un_types px py) (fun _ _ => 0) 0 0 U0 p0 F Hb ltac:(cbn; lia)) as (O & s0 & HI).
  destruct (exact_exists (n_velocity m) (o_A O) (nv_nonneg m D Hs)) as (vs & Hv).
  destruct (exact_exists (n_pressure m) (o_DBNG O) ltac:(pose proof (np_pos m D Hs); lia)) as (ps & Hp).
  assert (Hconv : forall h B x, boundary_after m D (un_types px py) (fun _ _ => 0) h B -> exists y, convection m D B x = Ok y).
  { intros h B x HB. destruct (conv_in_bounds m D _ _ (createConvection m D) _ B x Hs Hb (cs_new _ _ _ _) HB) as (y & C' & E).
    exists y. unfold convection. rewrite E. reflexivity. }
  destruct (steps_total m D P (un_types px py) (fun _ _ => 0) F Hb (convection m D) vs ps 0 0%Z U0 p0 O s0 (S (S k)) HI) as (s2 & H2).
  { intros h B x HB. destruct (Hconv _ B x HB) as (y & ->). eexists. reflexivity. }
  set (S1 := S k) in *. cbn [ns_steps] in H2. apply bind_ok_inv in H2. destruct H2 as (s & Hk & Ha).
  destruct (steps_boundary _ _ _ _ _ _ _ _ _ _ _ _ _ _ _ _ F Hb HI Hk) as (h1 & HB).
  destruct (Hconv _ _ (s_U s) HB) as (y & Hy). destruct (convection_inv _ _ _ _ _ Hy) as (C' & E).
  destruct (extends_box_exists m D (un_types px py) _ _ _ (s_U s) F Hb HB) as (u & HX & _).
  assert (Hn : no_normal_neumann m (un_types px py)).
  { intros f Hf. unfold un_types. destruct px, py; split; destruct (_ <? 2)%Z; discriminate. }
  assert (Hu : undriven m (un_types px py) (fun _ _ => 0)).
  { intros f loc Hf Hl. unfold un_types. split; [destruct px, py, (loc <? 2)%Z; discriminate|reflexivity]. }
  exists O, s0, vs, ps, s, s2, y. split; [exact Hs|]. split; [exact Hb|]. split; [apply un_min_all|]. split; [exact Hn|]. split; [exact Hu|].
  split; [apply un_uniform|]. split; [reflexivity|]. split; [cbn; lra|]. split; [cbn; lra|]. split; [exact HI|]. split; [exact Hv|]. split; [exact Hp|].
  split; [exact Hk|]. split; [exact Ha|]. split; [exact Hy|].
  exists ([OpICs U0] ++ h1), (s_bc s), u, C'. split; [now apply undriven_impermeable|]. split; [exists U0; now left|]. split; [exact HB|]. split; [exact HX|]. split; [|exact E].
  eapply (run_flux m D P (un_types px py) (fun _ _ => 0)); eauto; [apply un_min_all|cbn; lra|cbn; lra].
Qed.
