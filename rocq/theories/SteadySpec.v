(** Specification vocabulary: steady solutions of the discrete equations. *)
From Coq Require Import ZArith Reals.
From Verif Require Import Prelude ZSum RSum TypesModel GridModel GridSpec IndexModel IndexSpec BoundaryModel BoundarySpec
  OperatorModel OperatorSpec MatModel NSModel ConvModel ConvSpec.
Local Open Scope R_scope.

(** The values of u one layer out of the domain agree with the boundary
    conditions: given on the wall, or as the slope there, and no change across a
    convective boundary. *)
Definition steady_ghosts (m : mesh) (types : Z -> Z -> bctype) (values : Z -> Z -> R) (u : Z -> pt -> R) : Prop :=
  forall f loc q, (0 <= f < m_dim m)%Z -> (0 <= loc < m_dim m * 2)%Z -> periodic_dir m (loc_dir loc) = false -> is_ghost (m_n m f) loc q ->
    let d := loc_dir loc in let t := inner_of (m_n m f) loc q in
    match types f loc with
    | DIRICHLET => if (d =? f)%Z then u f q = values f loc else (u f q + u f t) / 2 = values f loc
    | NEUMANN => (u f q - u f t) / (crd m f d (pc q d) - crd m f d (pc t d)) = values f loc
    | CONVECTIVE => u f q = u f t
    | _ => True
    end.
(** Across periodic boundaries u repeats. *)
Definition repeats (m : mesh) (u : Z -> pt -> R) : Prop :=
  forall f q, (0 <= f < m_dim m)%Z -> in_frame (m_n m f) q -> has_image (m_n m f) (periodic_dir m) q = true -> u f q = u f (image (m_n m f) q).

(** u and the pressure pr are a steady solution without convection: no net
    flux out of any cell, and the viscous force balances the pressure gradient. *)
Definition steady_flow (m : mesh) (D : dec) (nu : R) (types : Z -> Z -> bctype) (values : Z -> Z -> R) (u : Z -> pt -> R) (pr : pt -> R) : Prop :=
  repeats m u /\ steady_ghosts m types values u /\
  (forall f p, (0 <= f < m_dim m)%Z -> interior (m_n m f) p ->
     convection_at m u f p = 0 /\ quiet_walls m D u f p /\ nu * laplacian_at m f u p = gradient_at m false pr f p) /\
  (forall p, interior (m_n m 3) p -> net_flux m false u p = 0).

(** The vector x holds the velocity u. *)
Definition holds (m : mesh) (D : dec) (u : Z -> pt -> R) (x : vec) : Prop :=
  forall id f p, nthZ (packed_layout (m_dim m) D) id = Some (f, p) -> x id = u f p.

(** Boundary conditions that let a uniform velocity c through. *)
Definition lets_through (m : mesh) (types : Z -> Z -> bctype) (values : Z -> Z -> R) (c : Z -> R) : Prop :=
  forall f loc, (0 <= f < m_dim m)%Z -> (0 <= loc < m_dim m * 2)%Z -> periodic_dir m (loc_dir loc) = false ->
    (types f loc = DIRICHLET /\ values f loc = c f) \/ (types f loc = NEUMANN /\ values f loc = 0) \/ types f loc = CONVECTIVE.
(** Flow in direction e between two walls normal to direction d that move with
    the velocities a and b: linear in the distance from the walls. *)
Definition couette (m : mesh) (e d : Z) (a b : R) (f : Z) (p : pt) : R :=
  if (f =? e)%Z then a + (b - a) * ((crd m e d (pc p d) - m_min m d) / (m_max m d - m_min m d)) else 0.
(** The walls: fixed, but for their velocities a and b in direction e. *)
Definition two_walls (m : mesh) (types : Z -> Z -> bctype) (values : Z -> Z -> R) (e d : Z) (a b : R) : Prop :=
  (forall d', (0 <= d' < m_dim m)%Z -> periodic_dir m d' = negb (d' =? d)%Z) /\
  forall f loc, (0 <= f < m_dim m)%Z -> (loc = 2 * d \/ loc = 2 * d + 1)%Z ->
    types f loc = DIRICHLET /\ values f loc = if (f =? e)%Z then (if (loc =? 2 * d)%Z then a else b) else 0.
