(** Specification vocabulary for the convection operator. *)
From Verif Require Import Prelude ZSum RSum TypesModel GridModel GridSpec IndexModel IndexSpec
  BoundaryModel BoundarySpec OperatorModel OperatorSpec MatModel ConvModel.
Local Open Scope R_scope.

(** Flux of component f of the momentum through the face after point p in
    direction d: transporting velocity (component d averaged along f) times
    transported velocity (component f averaged along d). *)
Definition momentum_flux (u : Z -> pt -> R) (f d : Z) (p : pt) : R :=
  (u d p + u d (shift p f 1)) / 2 * ((u f p + u f (shift p d 1)) / 2).
(** Divergence of that flux at point p of component f. *)
Definition convection_at (m : mesh) (u : Z -> pt -> R) (f : Z) (p : pt) : R :=
  zsum (fun d => (momentum_flux u f d p - momentum_flux u f d (shift p d (-1))) / wid m f d (pc p d)) 0 (m_dim m).

(** [extends], with periodic images also at the edges and corners. *)
Definition extends_box (m : mesh) (D : dec) (B : boundary) (x : vec) (u : Z -> pt -> R) : Prop :=
  extends m D B x u /\
  (forall f q, (0 <= f < m_dim m)%Z -> in_frame (m_n m f) q ->
     has_image (m_n m f) (periodic_dir m) q = true -> u f q = u f (image (m_n m f) q)).

(** p is in the box of component f owned by rank r. *)
Definition owned (D : dec) (f r : Z) (p : pt) : bool :=
  forallb (fun d => (d_bg D f d r <=? pc p d) && (pc p d <? d_ed D f d r))%Z (zrange 0 3).
(** Rank r receives the value of component f at q: q is in the domain or is the
    periodic image of such a point, or it is a ghost point next to a point that
    r owns. *)
Definition known (m : mesh) (D : dec) (r f : Z) (q : pt) : bool :=
  has_image (m_n m f) (periodic_dir m) q ||
  existsb (fun loc => negb (periodic_dir m (loc_dir loc)) && (pc q (loc_dir loc) =? ghost_layer (m_n m f) loc)%Z
                      && owned D f r (inner_of (m_n m f) loc q)) (zrange 0 (m_dim m * 2)).
(** What rank r has in its arrays: 0 where nothing was received. *)
Definition rank_view (m : mesh) (D : dec) (r : Z) (u : Z -> pt -> R) (f : Z) (q : pt) : R :=
  if known m D r f q then u f q else 0.

(** The contexts the operator can be in: after any sequence of applications,
    each with any vector and any state of the boundary. *)
Inductive conv_state (m : mesh) (D : dec) types values : cctx -> Prop :=
| cs_new : conv_state m D types values (createConvection m D)
| cs_mult C hist B x y C' : conv_state m D types values C -> boundary_after m D types values hist B ->
    convectionMult m D C B x = Ok (y, C') -> conv_state m D types values C'.

(** At a point p of component f next to a non-periodic boundary normal to
    another direction d: direction f is neither cut by the decomposition nor
    periodic, or nothing flows through the boundary, or nothing is transported
    through it. *)
Definition quiet_walls (m : mesh) (D : dec) (u : Z -> pt -> R) (f : Z) (p : pt) : Prop :=
  forall d, (0 <= d < m_dim m)%Z -> d <> f -> periodic_dir m d = false ->
    (ds_np D f = 1%Z /\ periodic_dir m f = false) \/
    ((pc p d = 0%Z ->
        (u d (shift p d (-1)) = 0 /\ u d (shift (shift p d (-1)) f 1) = 0) \/ u f p + u f (shift p d (-1)) = 0) /\
     (pc p d = (m_n m f d - 1)%Z ->
        (u d p = 0 /\ u d (shift p f 1) = 0) \/ u f p + u f (shift p d 1) = 0)).

(** The points of component f. *)
Definition points (m : mesh) (f : Z) : list pt := box 0 (m_n m f 0) 0 (m_n m f 1) 0 (m_n m f 2).
(** Area of the faces of the volume around a point of component f, normal to
    direction d. *)
Definition point_area (m : mesh) (f d : Z) (p : pt) : R :=
  (if (d =? 0)%Z then 1 else wid m f 0 (pc p 0)) * (if (d =? 1)%Z then 1 else wid m f 1 (pc p 1)) *
  (if (m_dim m =? 3)%Z then (if (d =? 2)%Z then 1 else wid m f 2 (pc p 2)) else 1).
(** Flux of component f of the momentum out of the box of its points. *)
Definition momentum_outflow (m : mesh) (u : Z -> pt -> R) (f : Z) : R :=
  zsum (fun d =>
      sumR (fun p => point_area m f d p * momentum_flux u f d p)
           (filter (fun p => (pc p d =? m_n m f d - 1)%Z) (points m f))
    - sumR (fun p => point_area m f d p * momentum_flux u f d (shift p d (-1)))
           (filter (fun p => (pc p d =? 0)%Z) (points m f))) 0 (m_dim m).
(** Volume around a point of component f. *)
Definition point_volume (m : mesh) (f : Z) (p : pt) : R :=
  wid m f 0 (pc p 0) * wid m f 1 (pc p 1) * (if (m_dim m =? 3)%Z then wid m f 2 (pc p 2) else 1).
(** Integral of component f of a vector of velocity values. *)
Definition integral (m : mesh) (D : dec) (f : Z) (y : vec) : R :=
  zsum (fun id => match nthZ (packed_layout (m_dim m) D) id with
                  | Some (g, p) => if (g =? f)%Z then point_volume m f p * y id else 0
                  | None => 0 end) 0 (n_velocity m).

(** Two vectors, distributed according to two decompositions of the same mesh,
    hold the same velocity field; two histories of boundary calls are the same
    calls with the same fields. *)
Definition same_velocity (m : mesh) (D1 D2 : dec) (x1 x2 : vec) : Prop :=
  forall id1 id2 f p, nthZ (packed_layout (m_dim m) D1) id1 = Some (f, p) ->
    nthZ (packed_layout (m_dim m) D2) id2 = Some (f, p) -> x1 id1 = x2 id2.
Inductive same_call (m : mesh) (D1 D2 : dec) : bop -> bop -> Prop :=
| sc_ics v1 v2 : same_velocity m D1 D2 v1 v2 -> same_call m D1 D2 (OpICs v1) (OpICs v2)
| sc_eqs v1 v2 dt : same_velocity m D1 D2 v1 v2 -> same_call m D1 D2 (OpEqs v1 dt) (OpEqs v2 dt)
| sc_vals v1 v2 : same_velocity m D1 D2 v1 v2 -> same_call m D1 D2 (OpVals v1) (OpVals v2).

(** Boundary conditions that let a uniform velocity c through. *)
Definition uniform_bc (m : mesh) (types : Z -> Z -> bctype) (values : Z -> Z -> R) (c : Z -> R) : Prop :=
  forall f loc, (0 <= f < m_dim m)%Z -> (0 <= loc < m_dim m * 2)%Z -> periodic_dir m (loc_dir loc) = false ->
    (types f loc = DIRICHLET /\ values f loc = c f) \/ (types f loc = NEUMANN /\ values f loc = 0).
Definition uniform_velocity (m : mesh) (D : dec) (c : Z -> R) (x : vec) : Prop :=
  forall id f p, nthZ (packed_layout (m_dim m) D) id = Some (f, p) -> x id = c f.
