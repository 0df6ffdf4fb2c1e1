(** Theorems about runs that start from a steady flow (C74). *)
From Coq Require Import Lia ZifyBool List Lra.
Import ListNotations.
From Verif Require Import Prelude ZSum RSum TypesModel GridModel GridSpec GridProof MeshProof
  IndexModel IndexSpec IndexProof BoundaryModel BoundarySpec BoundaryProof OperatorModel OperatorSpec
  MatModel BnModel NSModel NSSpec NSProof NSPin NSTotal NSProps LinAlg GradProof ConvModel ConvSpec ConvProof ConvValue ConvTotal ConvProps
  EnergySpec EnergyProof EnergyRun EnergyProps UniqueProof UniqueProps ExampleSetup DivProof SteadySpec SteadyProof SteadyFlows.
Local Open Scope R_scope.

Lemma kept_lemma m D P types values u pr t0 n0 U0 p0 O s0 vs ps k s :
  mesh_setup m D -> bc_fits m types -> periodic_min m 3 -> no_normal_neumann m types ->
  p_bn P = 1%Z -> 0 < p_dt P -> 0 <= p_dimp P * p_nu P -> p_dimp P + sumR (fun x => x) (p_dexp P) = 1 ->
  steady_flow m D (p_nu P) types values u pr ->
  (lenZ (p_dexp P) <= 1)%Z \/ (forall f p, (0 <= f < m_dim m)%Z -> interior (m_n m f) p -> laplacian_at m f u p = 0) ->
  holds m D u U0 -> pressure_values D p0 pr ->
  ns_init m D P types values t0 n0 U0 p0 = Ok (O, s0) ->
  exact_solver (n_velocity m) (o_A O) vs -> exact_solver (n_pressure m) (o_DBNG O) ps ->
  ns_steps m D P O (convection m D) vs ps k s0 = Ok s ->
  holds m D u (s_U s) /\ exists a, (p_refp P = true -> a = 0) /\ pressure_values D (s_p s) (fun p => pr p + a).
Proof.
  intros Hs Hb Hm Hn Hbn Hdt Hc Hsum Hst Hone HU Hp HI Hv Hps Hk. pose proof (setup_facts _ _ Hs) as F.
  destruct (steady_run m D P types values u pr t0 n0 U0 p0 O s0 Hs Hb Hm Hn Hbn Hdt Hc Hsum Hst Hone HU Hp HI vs ps Hv Hps k s Hk) as (_ & H1 & (a & Ra & Ea) & _).
  split; [exact H1|]. exists a. split; [exact Ra|]. intros i p Hi. destruct (pressure_row m D i p F Hi) as (Hq & E & _).
  rewrite Ea, (Hp i p Hi); [reflexivity|]. rewrite E. now apply pidx_range.
Qed.

(** C74. A run that starts from a steady solution of the discrete equations
    without convection stays there, for every number of steps: the velocity does
    not change at all, the pressure changes by a constant at most, and not at
    all when it is pinned. *)
Theorem steady_flow_kept : forall m D P types values u pr t0 n0 U0 p0 O s0 vs ps k s,
  mesh_setup m D -> bc_fits m types -> periodic_min m 3 -> no_normal_neumann m types ->
  p_bn P = 1%Z -> 0 < p_dt P -> 0 <= p_dimp P * p_nu P -> p_dimp P + sumR (fun x => x) (p_dexp P) = 1 ->
  steady_flow m D (p_nu P) types values u pr ->
  (lenZ (p_dexp P) <= 1)%Z \/ (forall f p, (0 <= f < m_dim m)%Z -> interior (m_n m f) p -> laplacian_at m f u p = 0) ->
  holds m D u U0 -> pressure_values D p0 pr ->
  ns_init m D P types values t0 n0 U0 p0 = Ok (O, s0) ->
  exact_solver (n_velocity m) (o_A O) vs -> exact_solver (n_pressure m) (o_DBNG O) ps ->
  ns_steps m D P O (convection m D) vs ps k s0 = Ok s ->
  holds m D u (s_U s) /\ exists a, (p_refp P = true -> a = 0) /\ pressure_values D (s_p s) (fun p => pr p + a).
Proof. exact kept_lemma. Qed.
Print Assumptions steady_flow_kept.

(** C74. Uniform flow through the domain, along an axis or (where the
    convection operator is right at the corners, C23) in any direction. *)
Theorem free_stream_kept : forall m D P types values c a0 t0 n0 U0 p0 O s0 vs ps k s,
  mesh_setup m D -> bc_fits m types -> periodic_min m 3 -> no_normal_neumann m types ->
  p_bn P = 1%Z -> 0 < p_dt P -> 0 <= p_dimp P * p_nu P -> p_dimp P + sumR (fun x => x) (p_dexp P) = 1 ->
  lets_through m types values c ->
  (forall f d, (0 <= f < m_dim m)%Z -> (0 <= d < m_dim m)%Z -> d <> f -> periodic_dir m d = false ->
     (ds_np D f = 1%Z /\ periodic_dir m f = false) \/ c d = 0 \/ c f = 0) ->
  uniform_velocity m D c U0 -> (forall i, p0 i = a0) ->
  ns_init m D P types values t0 n0 U0 p0 = Ok (O, s0) ->
  exact_solver (n_velocity m) (o_A O) vs -> exact_solver (n_pressure m) (o_DBNG O) ps ->
  ns_steps m D P O (convection m D) vs ps k s0 = Ok s ->
  uniform_velocity m D c (s_U s) /\ exists a, pressure_values D (s_p s) (fun _ => a).
Proof.
  intros m D P types values c a0 t0 n0 U0 p0 O s0 vs ps k s Hs Hb Hm Hn Hbn Hdt Hc Hsum Hl Hq HU Hp HI Hv Hps Hk.
  destruct (kept_lemma m D P types values (fun f _ => c f) (fun _ => a0) t0 n0 U0 p0 O s0 vs ps k s Hs Hb Hm Hn Hbn Hdt Hc Hsum (free_stream_steady m D _ types values c a0 Hs Hl Hq)
    ltac:(right; intros f p _ _; unfold laplacian_at, zsum; apply sumR_zero; intros d _; now apply second_flat) HU ltac:(intros i p _; now rewrite Hp) HI Hv Hps Hk) as (H1 & a & _ & H2).
  split; [exact H1|]. exists (a0 + a). exact H2.
Qed.
Print Assumptions free_stream_kept.

(** C74. Flow between two walls that move along themselves, on every mesh,
    stretched or not, with every scheme. *)
Theorem couette_flow_kept : forall m D P types values e d a b a0 t0 n0 U0 p0 O s0 vs ps k s,
  mesh_setup m D -> bc_fits m types -> periodic_min m 3 ->
  p_bn P = 1%Z -> 0 < p_dt P -> 0 <= p_dimp P * p_nu P -> p_dimp P + sumR (fun x => x) (p_dexp P) = 1 ->
  (0 <= e < m_dim m)%Z -> (0 <= d < m_dim m)%Z -> e <> d -> two_walls m types values e d a b ->
  holds m D (couette m e d a b) U0 -> (forall i, p0 i = a0) ->
  ns_init m D P types values t0 n0 U0 p0 = Ok (O, s0) ->
  exact_solver (n_velocity m) (o_A O) vs -> exact_solver (n_pressure m) (o_DBNG O) ps ->
  ns_steps m D P O (convection m D) vs ps k s0 = Ok s ->
  holds m D (couette m e d a b) (s_U s) /\ exists a, pressure_values D (s_p s) (fun _ => a).
Proof.
  intros m D P types values e d a b a0 t0 n0 U0 p0 O s0 vs ps k s Hs Hb Hm Hbn Hdt Hc Hsum He Hd Hne Hw HU Hp HI Hv Hps Hk.
  assert (Hn : no_normal_neumann m types).
  { intros f Hf. pose proof (mf_dim _ _ (setup_facts _ _ Hs)). destruct Hw as [Hp' Hv'].
    assert (X : forall loc, loc = (2 * f)%Z \/ loc = (2 * f + 1)%Z -> types f loc <> NEUMANN).
    { intros loc Hl. destruct (Z.eq_dec f d) as [->|Hfd]; [rewrite (proj1 (Hv' d loc Hf Hl)); discriminate|].
      destruct (Hb f loc Hf ltac:(lia)) as [_ Hper]. assert (El : loc_dir loc = f) by (unfold loc_dir; destruct Hl as [-> | ->]; [rewrite Z.mul_comm; apply Z.div_mul; lia|rewrite Z.add_comm, Z.mul_comm, Z.div_add by lia; reflexivity]).
      rewrite El, (Hp' f Hf) in Hper. destruct (Z.eqb_spec f d); [contradiction|]. rewrite (proj2 Hper eq_refl). discriminate. }
    split; apply X; auto. }
  destruct (kept_lemma m D P types values (couette m e d a b) (fun _ => a0) t0 n0 U0 p0 O s0 vs ps k s Hs Hb Hm Hn Hbn Hdt Hc Hsum (couette_steady m D types values e d a b Hs He Hd Hne Hw (p_nu P) a0)
    ltac:(right; now apply (couette_lap m D)) HU ltac:(intros i p _; now rewrite Hp) HI Hv Hps Hk) as (H1 & a' & _ & H2).
  split; [exact H1|]. exists (a0 + a'). exact H2.
Qed.
Print Assumptions couette_flow_kept.

(** * The hypotheses can be met *)
(** Inflow on the left, convective outflow on the right, on the stretched mesh
    on two ranks, with Adams-Bashforth convection and Crank-Nicolson diffusion. *)
Definition channel_types (f loc : Z) : bctype := if (loc =? 1)%Z then CONVECTIVE else DIRICHLET.
Definition stream (f : Z) : R := if (f =? 0)%Z then 1 else 0.
Lemma channel_fits : bc_fits (ex_mesh false false) channel_types.
Proof.
  intros f loc Hf Hl. rewrite ex_dim in Hl.
  assert (loc = 0 \/ loc = 1 \/ loc = 2 \/ loc = 3)%Z as [->|[->|[->| ->]]] by lia; (split; [discriminate|split; discriminate]).
Qed.
Lemma conv_total m D types values U0 : mesh_setup m D -> bc_fits m types ->
  forall hist B x, boundary_after m D types values ([OpICs U0] ++ hist) B -> is_ok (convection m D B x).
Proof.
  intros Hs Hb hist B x HB. destruct (conv_in_bounds m D types values (createConvection m D) _ B x Hs Hb (cs_new _ _ _ _) HB) as (y & C' & E).
  exists y. unfold convection. rewrite E. reflexivity.
Qed.
Example free_stream_case : forall (refp : bool) k, let m := ex_mesh false false in let D := ex_dec false false in
  let P := mkPar (1/100) 1 1 [3/2; -(1/2)] (1/2) [1/2] refp in let values := fun f _ => stream f in
  let U0 := fun id => match nthZ (packed_layout (m_dim m) D) id with Some (f, _) => stream f | None => 0 end in
  exists O s0 vs ps s, mesh_setup m D /\ bc_fits m channel_types /\ periodic_min m 3 /\ no_normal_neumann m channel_types /\
    p_bn P = 1%Z /\ 0 < p_dt P /\ 0 <= p_dimp P * p_nu P /\ p_dimp P + sumR (fun x => x) (p_dexp P) = 1 /\
    lets_through m channel_types values stream /\
    (forall f d, (0 <= f < m_dim m)%Z -> (0 <= d < m_dim m)%Z -> d <> f -> periodic_dir m d = false -> (ds_np D f = 1%Z /\ periodic_dir m f = false) \/ stream d = 0 \/ stream f = 0) /\
    uniform_velocity m D stream U0 /\
    ns_init m D P channel_types values 0 0 U0 (fun _ => 5) = Ok (O, s0) /\
    exact_solver (n_velocity m) (o_A O) vs /\ exact_solver (n_pressure m) (o_DBNG O) ps /\
    ns_steps m D P O (convection m D) vs ps k s0 = Ok s.
Proof.
  intros refp k m D P values U0. pose proof (ex_setup false false) as Hs. pose proof (setup_facts _ _ Hs) as F.
  destruct (init_total m D P channel_types values 0 0 U0 (fun _ => 5) F channel_fits ltac:(cbn; lia)) as (O & s0 & HI).
  destruct (exact_exists (n_velocity m) (o_A O) (nv_nonneg m D Hs)) as (vs & Hv).
  destruct (exact_exists (n_pressure m) (o_DBNG O) ltac:(pose proof (np_pos m D Hs); lia)) as (ps & Hp).
  destruct (steps_total m D P channel_types values F channel_fits (convection m D) vs ps 0 0%Z U0 (fun _ => 5) O s0 k HI) as (s & Hk).
  { intros. eapply conv_total; eauto using channel_fits. }
  exists O, s0, vs, ps, s. split; [exact Hs|]. split; [apply channel_fits|]. split; [apply (box_min false)|].
  split. { intros f Hf. unfold channel_types. split; destruct (_ =? _)%Z; discriminate. }
  split; [reflexivity|]. split; [cbn; lra|]. split; [cbn; lra|]. split; [cbn; lra|].
  split. { intros f loc Hf Hl _. unfold channel_types. destruct (loc =? 1)%Z; [right; right; reflexivity|left; split; reflexivity]. }
  split. { intros f d Hf Hd Hne _. right. unfold m in Hf, Hd. rewrite ex_dim in Hf, Hd. unfold stream. destruct (Z.eqb_spec d 0), (Z.eqb_spec f 0); subst; auto; lia. }
  split. { intros id f p Hid. unfold U0. now rewrite Hid. }
  auto.
Qed.
(** The upper wall moves; periodic along the walls. *)
Definition wall_values (f loc : Z) : R := if (f =? 0)%Z then (if (loc =? 3)%Z then 2 else 0) else 0.
Example couette_case : forall (refp : bool) k, let m := ex_mesh true false in let D := ex_dec true false in
  let P := mkPar (1/100) 1 1 [3/2; -(1/2)] 0 [3/2; -(1/2)] refp in
  let U0 := fun id => match nthZ (packed_layout (m_dim m) D) id with Some (f, p) => couette m 0 1 0 2 f p | None => 0 end in
  exists O s0 vs ps s, mesh_setup m D /\ bc_fits m (wall_types true false) /\ periodic_min m 3 /\
    p_bn P = 1%Z /\ 0 < p_dt P /\ 0 <= p_dimp P * p_nu P /\ p_dimp P + sumR (fun x => x) (p_dexp P) = 1 /\
    two_walls m (wall_types true false) wall_values 0 1 0 2 /\ holds m D (couette m 0 1 0 2) U0 /\
    ns_init m D P (wall_types true false) wall_values 0 0 U0 (fun _ => 5) = Ok (O, s0) /\
    exact_solver (n_velocity m) (o_A O) vs /\ exact_solver (n_pressure m) (o_DBNG O) ps /\
    ns_steps m D P O (convection m D) vs ps k s0 = Ok s.
Proof.
  intros refp k m D P U0. pose proof (ex_setup true false) as Hs. pose proof (setup_facts _ _ Hs) as F. pose proof (wall_fits true false) as Hb.
  destruct (init_total m D P (wall_types true false) wall_values 0 0 U0 (fun _ => 5) F Hb ltac:(cbn; lia)) as (O & s0 & HI).
  destruct (exact_exists (n_velocity m) (o_A O) (nv_nonneg m D Hs)) as (vs & Hv).
  destruct (exact_exists (n_pressure m) (o_DBNG O) ltac:(pose proof (np_pos m D Hs); lia)) as (ps & Hp).
  destruct (steps_total m D P (wall_types true false) wall_values F Hb (convection m D) vs ps 0 0%Z U0 (fun _ => 5) O s0 k HI) as (s & Hk).
  { intros. eapply conv_total; eauto. }
  exists O, s0, vs, ps, s. split; [exact Hs|]. split; [exact Hb|].
  split. { intros f d Hf Hd Hp'. unfold m in *. rewrite ex_dim in *. assert (d = 0%Z) as -> by (assert (d = 0 \/ d = 1)%Z as [->| ->] by lia; auto; discriminate).
    assert (f = 0 \/ f = 1)%Z as [->| ->] by lia; match goal with |- (_ <= ?a)%Z => let v := eval vm_compute in a in change a with v end; lia. }
  split; [reflexivity|]. split; [cbn; lra|]. split; [cbn; lra|]. split; [cbn; lra|].
  split. { split; [intros d Hd; unfold m in *; rewrite ex_dim in Hd; assert (d = 0 \/ d = 1)%Z as [->| ->] by lia; reflexivity|].
    intros f loc Hf [-> | ->]; (split; [reflexivity|]); unfold wall_values; destruct (f =? 0)%Z; reflexivity. }
  split. { intros id f p Hid. unfold U0. now rewrite Hid. }
  auto.
Qed.
