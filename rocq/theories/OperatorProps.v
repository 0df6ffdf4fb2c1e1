(** Properties of the discrete operators (C14, C16). *)
From Coq Require Import ZifyBool.
From Verif Require Import Prelude ZSum RSum TypesModel GridModel GridSpec IndexModel IndexSpec
  BoundaryModel BoundarySpec BoundaryProof OperatorModel OperatorSpec BStateProof LapProof DivProof ExampleSetup.
Local Open Scope R_scope.

(** C14. The Laplacian is assembled after the history [h0] of boundary calls;
    its correction is applied to the boundary equations current after h0 ++ h1;
    updating the ghost values with the vector x then gives B2. For every
    velocity vector x, L x + Lbc at every velocity point is the three-point
    second difference of x extended by periodic images and ghost values. *)
Theorem laplacian_is_extended_stencil : forall m D types values h0 h1 x B0 B1 B2 u,
  mesh_setup m D -> bc_fits m types -> has_ics h0 -> periodic_min m 3 ->
  boundary_after m D types values h0 B0 ->
  boundary_after m D types values (h0 ++ h1) B1 ->
  boundary_after m D types values (h0 ++ h1 ++ [OpVals x]) B2 ->
  extends m D B2 x u ->
  exists op c, createLaplacian m D B0 = Ok op /\ correction_mult m (nranks D) op B1 = Ok c /\
    forall id f p, nthZ (packed_layout (m_dim m) D) id = Some (f, p) ->
      mat_mult (op_log op) (n_velocity m) x id + c id = laplacian_at m f u p.
Proof.
  intros m D types values h0 h1 x B0 B1 B2 u Hs.
  exact (laplacian_lemma m D types values h0 h1 x B0 B1 B2 u (setup_facts _ _ Hs)).
Qed.
Print Assumptions laplacian_is_extended_stencil.

(** C16. Likewise D x + Dbc at every pressure cell is the net flux through its
    faces, area-weighted, or with unit areas for the normalised operator. *)
Theorem divergence_is_net_flux : forall m D types values nrm h0 h1 x B0 B1 B2 u,
  mesh_setup m D -> bc_fits m types -> has_ics h0 -> periodic_min m 2 ->
  boundary_after m D types values h0 B0 ->
  boundary_after m D types values (h0 ++ h1) B1 ->
  boundary_after m D types values (h0 ++ h1 ++ [OpVals x]) B2 ->
  extends m D B2 x u ->
  exists op c, createDivergence m D B0 nrm = Ok op /\ correction_mult m (nranks D) op B1 = Ok c /\
    forall id p, nthZ (field_layout D 3) id = Some p ->
      mat_mult (op_log op) (n_velocity m) x id + c id = net_flux m nrm u p.
Proof.
  intros m D types values nrm h0 h1 x B0 B1 B2 u Hs.
  exact (divergence_lemma m D types values nrm h0 h1 x B0 B1 B2 u (setup_facts _ _ Hs)).
Qed.
Print Assumptions divergence_is_net_flux.

(** The hypotheses are met on the 4 x 3 stretched mesh, periodic in y, on two
    ranks: Dirichlet inflow on the left, convective outflow on the right, any
    velocity vector. *)
Definition ex_types (f loc : Z) : bctype :=
  if (loc =? 0)%Z then DIRICHLET else if (loc =? 1)%Z then CONVECTIVE else PERIODIC.
Definition ex_values (f loc : Z) : R := 1.
Lemma ex_fits : bc_fits (ex_mesh false true) ex_types.
Proof.
  intros f loc Hf Hl. rewrite ex_dim in Hl.
  assert (loc = 0 \/ loc = 1 \/ loc = 2 \/ loc = 3)%Z as [->|[->|[->| ->]]] by lia; (split; [discriminate|split; [discriminate || reflexivity|discriminate || reflexivity]]).
Qed.
Lemma ex_min k : (k <= 3)%Z -> periodic_min (ex_mesh false true) k.
Proof.
  intros Hk f d Hf Hd. rewrite ex_dim in *.
  assert (f = 0 \/ f = 1)%Z as [->| ->] by lia; assert (d = 0 \/ d = 1)%Z as [->| ->] by lia; intros H; try discriminate;
    match goal with |- (_ <= ?a)%Z => change a with 3%Z end; exact Hk.
Qed.
Example operator_case : forall x v0 dt, let m := ex_mesh false true in let D := ex_dec false true in
  mesh_setup m D /\ bc_fits m ex_types /\ has_ics [OpICs v0] /\ periodic_min m 3 /\
  exists B0 B1 B2 u, boundary_after m D ex_types ex_values [OpICs v0] B0 /\
    boundary_after m D ex_types ex_values ([OpICs v0] ++ [OpEqs x dt]) B1 /\
    boundary_after m D ex_types ex_values ([OpICs v0] ++ [OpEqs x dt] ++ [OpVals x]) B2 /\
    extends m D B2 x u.
Proof.
  intros x v0 dt m D. pose proof (setup_facts _ _ (ex_setup false true)) as F.
  split; [apply ex_setup|]. split; [apply ex_fits|]. split; [exists v0; now left|]. split; [now apply ex_min|].
  pose proof (fun h => pure_after m D ex_types ex_values h F ex_fits) as P.
  destruct (extends_exists m D ex_types ex_values _ _ x F ex_fits (P ([OpICs v0] ++ [OpEqs x dt] ++ [OpVals x]))) as [u Hu].
  do 3 eexists. exists u. split; [apply P|]. split; [apply P|]. split; [apply P|]. exact Hu.
Qed.
