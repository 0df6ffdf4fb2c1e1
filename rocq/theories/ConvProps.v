(** Properties of the convection operator (C23-C25). *)
From Coq Require Import ZifyBool.
From Verif Require Import Prelude ZSum RSum TypesModel GridModel GridSpec GridProof MeshProof
  IndexModel IndexSpec IndexProof BoundaryModel BoundarySpec BoundaryProof OperatorModel OperatorSpec OperatorProof
  MatModel BStateProof GradProof AdjProof ExampleSetup ConvModel ConvSpec ConvProof ConvValue ConvTotal.
Local Open Scope R_scope.

(** C24. Applying the operator never reads or writes outside an array,
    whatever was computed with it before, and its result is the same as that
    of a new operator. *)
Theorem conv_in_bounds : forall m D types values C hist B x,
  mesh_setup m D -> bc_fits m types -> conv_state m D types values C ->
  boundary_after m D types values hist B ->
  exists y C', convectionMult m D C B x = Ok (y, C').
Proof.
  intros m D types values C hist B x Hs Hb HC HB. pose proof (setup_facts _ _ Hs) as F. pose proof (setup_diag _ _ Hs) as Hd.
  destruct (mult_value m D types values hist C B x F Hd Hb HB (state_ok _ _ _ _ _ F Hd Hb HC)) as (C' & E & _). eauto.
Qed.
Print Assumptions conv_in_bounds.

Theorem conv_no_memory : forall m D types values C1 C2 hist B x y1 y2 C1' C2',
  mesh_setup m D -> bc_fits m types -> conv_state m D types values C1 -> conv_state m D types values C2 ->
  boundary_after m D types values hist B ->
  convectionMult m D C1 B x = Ok (y1, C1') -> convectionMult m D C2 B x = Ok (y2, C2') -> y1 = y2.
Proof.
  intros m D types values C1 C2 hist B x y1 y2 C1' C2' Hs Hb H1 H2 HB E1 E2. pose proof (setup_facts _ _ Hs) as F. pose proof (setup_diag _ _ Hs) as Hd.
  destruct (mult_value m D types values hist C1 B x F Hd Hb HB (state_ok _ _ _ _ _ F Hd Hb H1)) as (? & A1 & _).
  destruct (mult_value m D types values hist C2 B x F Hd Hb HB (state_ok _ _ _ _ _ F Hd Hb H2)) as (? & A2 & _).
  rewrite E1 in A1. rewrite E2 in A2. injection A1 as -> _. injection A2 as -> _. reflexivity.
Qed.
Print Assumptions conv_no_memory.

(** C24. What every entry of the result is: the divergence of the momentum flux
    of the velocity that the owner of the point has received; away from open
    boundaries cut by the decomposition that is the velocity itself. *)
Theorem conv_rank_value : forall m D types values C hist B x u y C' id f p r,
  mesh_setup m D -> bc_fits m types -> conv_state m D types values C -> boundary_after m D types values hist B ->
  extends_box m D B x u -> convectionMult m D C B x = Ok (y, C') ->
  nthZ (packed_layout (m_dim m) D) id = Some (f, p) -> (0 <= r < nranks D)%Z -> In p (local_points D f r) ->
  y id = convection_at m (rank_view m D r u) f p.
Proof.
  intros m D types values C hist B x u y C' id f p r Hs.
  exact (rank_value m D types values hist C B x u y C' id f p r (setup_facts _ _ Hs) (setup_diag _ _ Hs)).
Qed.
Print Assumptions conv_rank_value.

Lemma conv_value_lemma m D types values C hist B x u y C' id f p :
  mesh_setup m D -> bc_fits m types -> conv_state m D types values C -> boundary_after m D types values hist B ->
  extends_box m D B x u -> convectionMult m D C B x = Ok (y, C') ->
  nthZ (packed_layout (m_dim m) D) id = Some (f, p) -> quiet_walls m D u f p ->
  y id = convection_at m u f p.
Proof.
  intros Hs Hb HC HB HX E Hid Hq. pose proof (setup_facts _ _ Hs) as F. destruct (velocity_row m D id f p F Hid) as (Hf & Hp & _ & r & Hr & Hl).
  rewrite (conv_rank_value m D types values C hist B x u y C' id f p r Hs Hb HC HB HX E Hid Hr Hl). now apply view_value.
Qed.
Theorem conv_value : forall m D types values C hist B x u y C' id f p,
  mesh_setup m D -> bc_fits m types -> conv_state m D types values C -> boundary_after m D types values hist B ->
  extends_box m D B x u -> convectionMult m D C B x = Ok (y, C') ->
  nthZ (packed_layout (m_dim m) D) id = Some (f, p) -> quiet_walls m D u f p ->
  y id = convection_at m u f p.
Proof. exact conv_value_lemma. Qed.
Print Assumptions conv_value.

(** C25. The same velocity and the same boundary calls on two decompositions
    give the same result at every point where the boundary is quiet in both. *)
Theorem conv_decomposition : forall m D1 D2 types values C1 C2 h1 h2 B1 B2 x1 x2 y1 y2 C1' C2' id1 id2 f p u,
  mesh_setup m D1 -> mesh_setup m D2 -> bc_fits m types ->
  conv_state m D1 types values C1 -> conv_state m D2 types values C2 ->
  boundary_after m D1 types values h1 B1 -> boundary_after m D2 types values h2 B2 -> Forall2 (same_call m D1 D2) h1 h2 ->
  same_velocity m D1 D2 x1 x2 -> extends_box m D1 B1 x1 u ->
  convectionMult m D1 C1 B1 x1 = Ok (y1, C1') -> convectionMult m D2 C2 B2 x2 = Ok (y2, C2') ->
  nthZ (packed_layout (m_dim m) D1) id1 = Some (f, p) -> nthZ (packed_layout (m_dim m) D2) id2 = Some (f, p) ->
  quiet_walls m D1 u f p -> quiet_walls m D2 u f p ->
  y1 id1 = y2 id2.
Proof.
  intros m D1 D2 types values C1 C2 h1 h2 B1 B2 x1 x2 y1 y2 C1' C2' id1 id2 f p u Hs1 Hs2 Hb HC1 HC2 HB1 HB2 Hh Hx HX E1 E2 I1 I2 Q1 Q2.
  pose proof (extends_both m D1 D2 types values h1 h2 B1 B2 x1 x2 u (setup_facts _ _ Hs1) (setup_facts _ _ Hs2) Hb HB1 HB2 Hh Hx HX) as HX2.
  rewrite (conv_value m D1 types values C1 h1 B1 x1 u y1 C1' id1 f p Hs1 Hb HC1 HB1 HX E1 I1 Q1).
  now rewrite (conv_value m D2 types values C2 h2 B2 x2 u y2 C2' id2 f p Hs2 Hb HC2 HB2 HX2 E2 I2 Q2).
Qed.
Print Assumptions conv_decomposition.

(** In particular everywhere on a fully periodic mesh. *)
Theorem conv_decomposition_periodic : forall m D1 D2 types values C1 C2 h1 h2 B1 B2 x1 x2 y1 y2 C1' C2',
  mesh_setup m D1 -> mesh_setup m D2 -> bc_fits m types -> (forall d, (0 <= d < m_dim m)%Z -> periodic_dir m d = true) ->
  conv_state m D1 types values C1 -> conv_state m D2 types values C2 ->
  boundary_after m D1 types values h1 B1 -> boundary_after m D2 types values h2 B2 -> Forall2 (same_call m D1 D2) h1 h2 ->
  same_velocity m D1 D2 x1 x2 ->
  convectionMult m D1 C1 B1 x1 = Ok (y1, C1') -> convectionMult m D2 C2 B2 x2 = Ok (y2, C2') ->
  same_velocity m D1 D2 y1 y2.
Proof.
  intros m D1 D2 types values C1 C2 h1 h2 B1 B2 x1 x2 y1 y2 C1' C2' Hs1 Hs2 Hb Hper HC1 HC2 HB1 HB2 Hh Hx E1 E2 id1 id2 f p I1 I2.
  destruct (extends_box_exists m D1 types values h1 B1 x1 (setup_facts _ _ Hs1) Hb HB1) as [u HX].
  eapply (conv_decomposition m D1 D2); eauto; intros d Hd _ Hn; rewrite Hper in Hn by auto; discriminate.
Qed.
Print Assumptions conv_decomposition_periodic.

(** The full claim is false: on a 4 x 3 mesh with a uniform flow through
    Dirichlet boundaries, one rank computes 0 and two ranks do not. *)
Definition one_dec (px py : bool) : dec := default_dec (fun _ => 1%Z) (m_n (ex_mesh px py)).
Definition wall_types (px py : bool) (f loc : Z) : bctype := if (loc <? 2)%Z then (if px then PERIODIC else DIRICHLET) else (if py then PERIODIC else DIRICHLET).
Definition ones (_ : Z) : R := 1.
Lemma one_setup px py : mesh_setup (ex_mesh px py) (one_dec px py).
Proof.
  exists ex_mn, ex_mx, (ex_per px py), ex_w, (fun _ => 1%Z).
  rewrite !ex_dim. split; [exact ex_grid|]. split; [apply ex_create|]. split; [reflexivity|].
  split; [intros; lia|]. split; [reflexivity|]. destruct px, py; reflexivity.
Qed.
Lemma wall_fits px py : bc_fits (ex_mesh px py) (wall_types px py).
Proof.
  intros f loc Hf Hl. rewrite ex_dim in Hl.
  assert (loc = 0 \/ loc = 1 \/ loc = 2 \/ loc = 3)%Z as [->|[->|[->| ->]]] by lia;
    destruct px, py; (split; [discriminate|split; [discriminate || reflexivity|discriminate || reflexivity]]).
Qed.
Lemma wall_uniform px py : uniform_bc (ex_mesh px py) (wall_types px py) (fun _ _ => 1) ones.
Proof.
  intros f loc Hf Hl Hper. left. split; [|reflexivity]. rewrite ex_dim in Hl.
  assert (loc = 0 \/ loc = 1 \/ loc = 2 \/ loc = 3)%Z as [->|[->|[->| ->]]] by lia; destruct px, py; try reflexivity; discriminate.
Qed.

(** Result for uniform flow on a set-up, in terms of what the owner knows. *)
Lemma uniform_result m D types values c x : mesh_setup m D -> bc_fits m types -> uniform_bc m types values c -> uniform_velocity m D c x ->
  exists B y C', boundary_after m D types values [OpICs x] B /\ extends_box m D B x (fun f q => c f) /\
    convectionMult m D (createConvection m D) B x = Ok (y, C') /\
    forall id f p r, nthZ (packed_layout (m_dim m) D) id = Some (f, p) -> (0 <= r < nranks D)%Z -> In p (local_points D f r) ->
      y id = convection_at m (rank_view m D r (fun g _ => c g)) f p.
Proof.
  intros Hs Hb Hu Hx. pose proof (setup_facts _ _ Hs) as F. pose proof (pure_after m D types values [OpICs x] F Hb) as HB.
  destruct (conv_in_bounds m D types values (createConvection m D) [OpICs x] _ x Hs Hb (cs_new _ _ _ _) HB) as (y & C' & E).
  pose proof (uniform_extends m D types values c [] (OpICs x) _ x F Hb Hu Hx ltac:(exists x; now left) (or_introl eq_refl) HB) as HX.
  do 3 eexists. split; [exact HB|]. split; [exact HX|]. split; [exact E|]. intros id f p r Hid Hr Hp.
  eapply conv_rank_value; eauto. apply cs_new.
Qed.

Theorem conv_decomposition_refuted : exists m D1 D2 types values h1 h2 B1 B2 x1 x2 y1 y2 C1' C2' id1 id2 f p,
  mesh_setup m D1 /\ mesh_setup m D2 /\ bc_fits m types /\
  boundary_after m D1 types values h1 B1 /\ boundary_after m D2 types values h2 B2 /\ Forall2 (same_call m D1 D2) h1 h2 /\
  same_velocity m D1 D2 x1 x2 /\
  convectionMult m D1 (createConvection m D1) B1 x1 = Ok (y1, C1') /\ convectionMult m D2 (createConvection m D2) B2 x2 = Ok (y2, C2') /\
  nthZ (packed_layout (m_dim m) D1) id1 = Some (f, p) /\ nthZ (packed_layout (m_dim m) D2) id2 = Some (f, p) /\
  y1 id1 <> y2 id2.
Proof.
  set (m := ex_mesh false false).
  destruct (uniform_result m (one_dec false false) _ _ ones (fun _ => 1) (one_setup _ _) (wall_fits _ _) (wall_uniform _ _) (fun _ _ _ _ => eq_refl))
    as (B1 & y1 & C1 & HB1 & _ & E1 & V1).
  destruct (uniform_result m (ex_dec false false) _ _ ones (fun _ => 1) (ex_setup _ _) (wall_fits _ _) (wall_uniform _ _) (fun _ _ _ _ => eq_refl))
    as (B2 & y2 & C2 & HB2 & _ & E2 & V2).
  exists m, (one_dec false false), (ex_dec false false), (wall_types false false), (fun _ _ => 1), [OpICs (fun _ => 1)], [OpICs (fun _ => 1)], B1, B2.
  exists (fun _ => 1), (fun _ => 1), y1, y2, C1, C2, 1%Z, 1%Z, 0%Z, (1, 0, 0)%Z.
  split; [apply one_setup|]. split; [apply ex_setup|]. split; [apply wall_fits|]. split; [exact HB1|]. split; [exact HB2|].
  split; [constructor; [constructor; intros ? ? ? ? _ _; reflexivity|constructor]|]. split; [intros ? ? ? ? _ _; reflexivity|].
  split; [exact E1|]. split; [exact E2|]. split; [reflexivity|]. split; [reflexivity|].
  rewrite (V1 1%Z 0%Z (1, 0, 0)%Z 0%Z) by (vm_compute; auto; split; congruence).
  rewrite (V2 1%Z 0%Z (1, 0, 0)%Z 0%Z) by (vm_compute; auto; split; congruence).
  cbv -[IZR Rplus Rminus Rmult Rinv Rdiv Ropp]. intros E. field_simplify in E. lra.
Qed.
Print Assumptions conv_decomposition_refuted.

(** C23. A uniform velocity, let through by the boundary conditions, gives no
    convection at points where the boundary is quiet. *)
Theorem conv_free_stream_points : forall m D types values C c pre o B x y C' id f p,
  mesh_setup m D -> bc_fits m types -> uniform_bc m types values c -> uniform_velocity m D c x ->
  conv_state m D types values C -> has_ics (pre ++ [o]) -> (o = OpICs x \/ o = OpVals x) ->
  boundary_after m D types values (pre ++ [o]) B ->
  convectionMult m D C B x = Ok (y, C') ->
  nthZ (packed_layout (m_dim m) D) id = Some (f, p) -> quiet_walls m D (fun g _ => c g) f p ->
  y id = 0.
Proof.
  intros m D types values C c pre o B x y C' id f p Hs Hb Hu Hx HC Hi Ho HB E Hid Hq.
  rewrite (conv_value m D types values C _ B x (fun g _ => c g) y C' id f p Hs Hb HC HB
    (uniform_extends m D types values c pre o B x (setup_facts _ _ Hs) Hb Hu Hx Hi Ho HB) E Hid Hq). apply uniform_zero.
Qed.
Print Assumptions conv_free_stream_points.

(** Everywhere, on one rank without periodic directions, or when periodic in
    every direction. *)
Theorem conv_free_stream : forall m D types values C c pre o B x y C' id,
  mesh_setup m D -> bc_fits m types -> uniform_bc m types values c -> uniform_velocity m D c x ->
  conv_state m D types values C -> has_ics (pre ++ [o]) -> (o = OpICs x \/ o = OpVals x) ->
  boundary_after m D types values (pre ++ [o]) B ->
  convectionMult m D C B x = Ok (y, C') ->
  (forall d, (0 <= d < m_dim m)%Z -> ds_np D d = 1%Z /\ periodic_dir m d = false) \/
  (forall d, (0 <= d < m_dim m)%Z -> periodic_dir m d = true) ->
  (0 <= id < n_velocity m)%Z -> y id = 0.
Proof.
  intros m D types values C c pre o B x y C' id Hs Hb Hu Hx HC Hi Ho HB E Hc Hid. pose proof (setup_facts _ _ Hs) as F.
  destruct (velocity_ids m D id F Hid) as (f & p & Hn). destruct (velocity_row m D id f p F Hn) as (Hf & _).
  eapply conv_free_stream_points; eauto. intros d Hd Hne Hper. destruct Hc as [Hc|Hc]; [left; auto|]. rewrite Hc in Hper by auto. discriminate.
Qed.
Print Assumptions conv_free_stream.

(** It is false, even on one rank, next to a boundary that the flow crosses in a
    domain with another, periodic direction. *)
Theorem conv_free_stream_refuted : exists m D types values c B x y C' id,
  mesh_setup m D /\ nranks D = 1%Z /\ bc_fits m types /\ uniform_bc m types values c /\ uniform_velocity m D c x /\
  boundary_after m D types values [OpICs x] B /\
  convectionMult m D (createConvection m D) B x = Ok (y, C') /\ (0 <= id < n_velocity m)%Z /\ y id <> 0.
Proof.
  destruct (uniform_result (ex_mesh true false) (one_dec true false) _ _ ones (fun _ => 1) (one_setup _ _) (wall_fits _ _) (wall_uniform _ _) (fun _ _ _ _ => eq_refl))
    as (B & y & C' & HB & _ & E & V).
  exists (ex_mesh true false), (one_dec true false), (wall_types true false), (fun _ _ => 1), ones, B, (fun _ => 1), y, C', 3%Z.
  split; [apply one_setup|]. split; [reflexivity|]. split; [apply wall_fits|]. split; [apply wall_uniform|]. split; [intros ? ? ? _; reflexivity|].
  split; [exact HB|]. split; [exact E|]. split; [vm_compute; split; congruence|].
  rewrite (V 3%Z 0%Z (3, 0, 0)%Z 0%Z) by (vm_compute; auto 10; split; congruence).
  cbv -[IZR Rplus Rminus Rmult Rinv Rdiv Ropp]. intros E0. field_simplify in E0. lra.
Qed.
Print Assumptions conv_free_stream_refuted.

(** C23. The integral of the convection of a component is the flux of that
    component of the momentum out of the domain, ... *)
Theorem conv_conservative : forall m D types values C hist B x u y C' f,
  mesh_setup m D -> bc_fits m types -> conv_state m D types values C -> boundary_after m D types values hist B ->
  extends_box m D B x u -> convectionMult m D C B x = Ok (y, C') -> (0 <= f < m_dim m)%Z ->
  (forall p, interior (m_n m f) p -> quiet_walls m D u f p) ->
  integral m D f y = momentum_outflow m u f.
Proof.
  intros m D types values C hist B x u y C' f Hs Hb HC HB HX E Hf Hq. pose proof (setup_facts _ _ Hs) as F.
  rewrite (integral_points m D f y (convection_at m u f) F Hf).
  - now apply (total_momentum m D).
  - intros id p Hid. eapply conv_value; eauto. apply Hq. now apply (velocity_row m D id f p F Hid).
Qed.
Print Assumptions conv_conservative.

(** ... which is zero on a fully periodic domain. *)
Theorem conv_conservative_periodic : forall m D types values C hist B x y C' f,
  mesh_setup m D -> bc_fits m types -> conv_state m D types values C -> boundary_after m D types values hist B ->
  convectionMult m D C B x = Ok (y, C') -> (0 <= f < m_dim m)%Z ->
  (forall d, (0 <= d < m_dim m)%Z -> periodic_dir m d = true) ->
  integral m D f y = 0.
Proof.
  intros m D types values C hist B x y C' f Hs Hb HC HB E Hf Hper. pose proof (setup_facts _ _ Hs) as F.
  destruct (extends_box_exists m D types values hist B x F Hb HB) as [u HX].
  rewrite (conv_conservative m D types values C hist B x u y C' f Hs Hb HC HB HX E Hf); [eapply periodic_momentum; eauto|].
  intros p _ d Hd _ Hn. rewrite Hper in Hn by auto. discriminate.
Qed.
Print Assumptions conv_conservative_periodic.

(** The hypotheses are met on the 4 x 3 mesh on two ranks, with Dirichlet
    boundaries, for any velocity and any values on the walls; the conditions on
    the walls by walls that nothing flows through, on which u = 0. *)
Example conv_case : forall values x v0 dt, let m := ex_mesh false false in let D := ex_dec false false in
  mesh_setup m D /\ bc_fits m (wall_types false false) /\
  exists B C y1 y2 C1 u, boundary_after m D (wall_types false false) values [OpICs v0; OpEqs v0 dt; OpVals x] B /\
    convectionMult m D (createConvection m D) B x = Ok (y1, C1) /\ conv_state m D (wall_types false false) values C1 /\
    convectionMult m D C1 B x = Ok (y2, C) /\ extends_box m D B x u /\ quiet_walls m D u 0 (0, 1, 0)%Z.
Proof.
  intros values x v0 dt m D. pose proof (ex_setup false false) as Hs. pose proof (setup_facts _ _ Hs) as F. pose proof (wall_fits false false) as Hb.
  split; [exact Hs|]. split; [exact Hb|]. pose proof (pure_after m D (wall_types false false) values [OpICs v0; OpEqs v0 dt; OpVals x] F Hb) as HB.
  destruct (conv_in_bounds m D _ values _ _ _ x Hs Hb (cs_new _ _ _ _) HB) as (y1 & C1 & E1).
  pose proof (cs_mult m D (wall_types false false) values _ _ _ x y1 C1 (cs_new _ _ _ _) HB E1) as S1.
  destruct (conv_in_bounds m D _ values _ _ _ x Hs Hb S1 HB) as (y2 & C & E2).
  destruct (extends_box_exists m D _ values _ _ x F Hb HB) as [u HX].
  do 6 eexists. split; [exact HB|]. split; [exact E1|]. split; [exact S1|]. split; [exact E2|]. split; [exact HX|].
  intros d Hd Hne _. unfold m in Hd. rewrite ex_dim in Hd. assert (d = 1%Z) as -> by lia. right. split; intros H; vm_compute in H; discriminate.
Qed.
