(** Specification vocabulary for the discrete operators. *)
From Verif Require Import Prelude ZSum RSum TypesModel GridModel GridSpec IndexModel IndexSpec
  BoundaryModel BoundarySpec OperatorModel.
Local Open Scope R_scope.

(** The boundary-condition table fits the mesh: every boundary has a type, and
    it is periodic exactly in the periodic directions (C05). *)
Definition bc_fits (m : mesh) (types : Z -> Z -> bctype) : Prop :=
  forall f loc, (0 <= f < m_dim m)%Z -> (0 <= loc < m_dim m * 2)%Z ->
    types f loc <> NOBC /\ (types f loc = PERIODIC <-> periodic_dir m (loc_dir loc) = true).

(** B is the boundary object (on every rank) after the calls [hist]. *)
Definition boundary_after (m : mesh) (D : dec) types values (hist : list bop) (B : boundary) : Prop :=
  forall r, (0 <= r < nranks D)%Z ->
    exists b0, createBoundary m D r types values = Ok b0 /\ run_boundary m D r hist b0 = Ok (B r).

Definition has_ics (hist : list bop) : Prop := exists v0, In (OpICs v0) hist.

(** The ghost point q of component f carries the value v in B. *)
Definition ghost_value (D : dec) (B : boundary) (f : Z) (q : pt) (v : R) : Prop :=
  exists r row loc sb info, (0 <= r < nranks D)%Z /\ nthZ (B r) f = Some row /\ nthZ row loc = Some sb /\
    In (st_of q, info) (sb_points sb) /\ v = gi_value info.

(** [u f p] is the velocity vector x, extended one layer out of the domain by
    periodic images and by the ghost values of B. *)
Definition extends (m : mesh) (D : dec) (B : boundary) (x : Z -> R) (u : Z -> pt -> R) : Prop :=
  (forall id f p, nthZ (packed_layout (m_dim m) D) id = Some (f, p) -> u f p = x id) /\
  (forall f q, (0 <= f < m_dim m)%Z -> in_frame (m_n m f) q -> n_outside (m_n m f) q = 1%Z ->
     has_image (m_n m f) (periodic_dir m) q = true -> u f q = u f (image (m_n m f) q)) /\
  (forall f q v, ghost_value D B f q v -> u f q = v).

(** Number of velocity unknowns, of pressure unknowns. *)
Definition n_velocity (m : mesh) : Z := isum (fun g => npoints (m_n m g)) 0 (m_dim m).
Definition n_pressure (m : mesh) : Z := npoints (m_n m 3).

(** Three-point second difference along direction d, at index i, of values v on
    the points of component f. *)
Definition second_difference (m : mesh) (f d : Z) (v : Z -> R) (i : Z) : R :=
  ((v (i + 1)%Z - v i) / (crd m f d (i + 1) - crd m f d i)
   - (v i - v (i - 1)%Z) / (crd m f d i - crd m f d (i - 1))) / wid m f d i.
Definition laplacian_at (m : mesh) (f : Z) (u : Z -> pt -> R) (p : pt) : R :=
  zsum (fun d => second_difference m f d (fun i => u f (setc p d i)) (pc p d)) 0 (m_dim m).

(** Area of the face of component f at a point: the product of the cell widths
    in the two other directions. *)
Definition face_area (m : mesh) (normalize : bool) (f : Z) (p : pt) : R :=
  if normalize then 1 else wid m f (perp0 f) (pc p (perp0 f)) * wid m f (perp1 f) (pc p (perp1 f)).
(** Net flux out of cell p: velocity component f at index i sits on the face
    between cells i and i + 1. *)
Definition net_flux (m : mesh) (normalize : bool) (u : Z -> pt -> R) (p : pt) : R :=
  zsum (fun f => face_area m normalize f p * (u f p - u f (shift p f (-1)))) 0 (m_dim m).

(** Enough points in the periodic directions. *)
Definition periodic_min (m : mesh) (k : Z) : Prop :=
  forall f d, (0 <= f < m_dim m)%Z -> (0 <= d < m_dim m)%Z -> periodic_dir m d = true -> (k <= m_n m f d)%Z.

(** [P p] is the entry of the pressure vector y at cell p. *)
Definition pressure_values (D : dec) (y : Z -> R) (P : pt -> R) : Prop :=
  forall id p, nthZ (field_layout D 3) id = Some p -> P p = y id.
(** Difference between the two cells that share the face (f, p), over the
    distance of their centres (1 for the normalised operator). The cell beyond
    a periodic boundary is its image. *)
Definition gradient_at (m : mesh) (normalize : bool) (P : pt -> R) (f : Z) (p : pt) : R :=
  (P (image (m_n m 3) (shift p f 1)) - P p) / (if normalize then 1 else wid m f f (pc p f)).

(** The cells of the mesh. *)
Definition cells (m : mesh) : list pt := box 0 (m_n m 3 0) 0 (m_n m 3 1) 0 (m_n m 3 2).
(** Net flux through the boundary of the domain: in every direction the faces
    after the last cells minus the faces before the first cells. *)
Definition domain_outflow (m : mesh) (normalize : bool) (u : Z -> pt -> R) : R :=
  zsum (fun f =>
      sumR (fun p => face_area m normalize f p * u f p)
           (filter (fun p => (pc p f =? m_n m 3 f - 1)%Z) (cells m))
    - sumR (fun p => face_area m normalize f p * u f (shift p f (-1)))
           (filter (fun p => (pc p f =? 0)%Z) (cells m))) 0 (m_dim m).

(** No velocity component has a Neumann condition on a boundary normal to it. *)
Definition no_normal_neumann (m : mesh) (types : Z -> Z -> bctype) : Prop :=
  forall f, (0 <= f < m_dim m)%Z -> types f (2 * f)%Z <> NEUMANN /\ types f (2 * f + 1)%Z <> NEUMANN.
(** Volume of the cell around a velocity point. *)
Definition point_volume (m : mesh) (f : Z) (p : pt) : R :=
  wid m f 0 (pc p 0) * wid m f 1 (pc p 1) * (if (m_dim m =? 3)%Z then wid m f 2 (pc p 2) else 1).
(** A point with interior neighbours in every direction. *)
Definition inner_point (m : mesh) (f : Z) (p : pt) : Prop :=
  interior (m_n m f) p /\ forall d, (0 <= d < m_dim m)%Z -> (1 <= pc p d <= m_n m f d - 2)%Z.
(** The entry of a velocity vector at every velocity point is the value of [u]. *)
Definition samples (m : mesh) (D : dec) (u : Z -> pt -> R) (x : Z -> R) : Prop :=
  forall id f p, nthZ (packed_layout (m_dim m) D) id = Some (f, p) -> u f p = x id.
