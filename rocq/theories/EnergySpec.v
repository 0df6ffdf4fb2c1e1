(** Specification vocabulary for the kinetic energy of a run. *)
From Verif Require Import Prelude ZSum RSum TypesModel GridModel GridSpec IndexModel IndexSpec
  BoundaryModel BoundarySpec OperatorModel OperatorSpec MatModel NSModel ConvSpec.
Local Open Scope R_scope.

(** Volume around the velocity point stored in entry id of a vector. *)
Definition volume (m : mesh) (D : dec) (id : Z) : R :=
  match nthZ (packed_layout (m_dim m) D) id with Some (f, p) => point_volume m f p | None => 0 end.
(** The integral of the product of two velocity vectors; the power of a force. *)
Definition inner (m : mesh) (D : dec) (x y : vec) : R :=
  zsum (fun i => volume m D i * (x i * y i)) 0 (n_velocity m).
(** Kinetic energy of a velocity. *)
Definition kinetic (m : mesh) (D : dec) (x : vec) : R := inner m D x x / 2.

(** Nothing drives the flow through the boundaries: every boundary is periodic,
    or a wall at rest, or has a zero derivative. *)
Definition undriven (m : mesh) (types : Z -> Z -> bctype) (values : Z -> Z -> R) : Prop :=
  forall f loc, (0 <= f < m_dim m)%Z -> (0 <= loc < m_dim m * 2)%Z ->
    types f loc <> CONVECTIVE /\ (types f loc <> PERIODIC -> values f loc = 0).

(** A solver returns a solution of A x = b whenever there is one. *)
Definition exact_solver (n : Z) (A : mat) (solve : vec -> vec -> vec) : Prop :=
  forall guess b, (exists x, forall i, (0 <= i < n)%Z -> mvec n A x i = b i) ->
    forall i, (0 <= i < n)%Z -> mvec n A (solve guess b) i = b i.

(** The energy of a state of a solver with n pressures and forces: the kinetic
    energy plus that of the velocity the pressure gradient (and the forces of
    the bodies) would produce in one time step. *)
Definition stored_energy (n : Z) (m : mesh) (D : dec) (P : nspar) (O : nsops) (s : nsstate) : R :=
  kinetic m D (s_U s) + p_dt P * p_dt P * kinetic m D (mvec n (o_G O) (s_p s)).
