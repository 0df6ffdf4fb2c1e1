(** Specification vocabulary: two runs whose fields are images of each other. *)
From Coq Require Import ZArith Reals.
From Verif Require Import Prelude ZSum RSum TypesModel GridModel GridSpec IndexModel IndexSpec BoundaryModel BoundarySpec
  OperatorModel OperatorSpec MatModel NSModel NSSpec ConvModel ConvSpec SteadySpec.
Local Open Scope R_scope.

(** A map from the fields of one mesh (A) to those of another (B): component f
    at the point p of B is [fm_sg f] times component [fm_pi f] at the point
    [fm_pt f p] of A; the pressure in cell p of B is [fm_pf] times the pressure
    in cell [fm_pt 3 p] of A. *)
Record fmap := mkMap { fm_sg : Z -> R; fm_pi : Z -> Z; fm_pt : Z -> pt -> pt; fm_pf : R }.
Definition map_velocity (M : fmap) (u : Z -> pt -> R) (f : Z) (p : pt) : R := fm_sg M f * u (fm_pi M f) (fm_pt M f p).
Definition map_pressure (M : fmap) (pr : pt -> R) (p : pt) : R := fm_pf M * pr (fm_pt M 3%Z p).

(** The velocity vector xB, on the mesh B, holds the image of the velocity that
    xA holds on the mesh A. *)
Definition maps_velocity (M : fmap) (mA : mesh) (DA : dec) (mB : mesh) (DB : dec) (xA xB : vec) : Prop :=
  forall idA idB f p, nthZ (packed_layout (m_dim mB) DB) idB = Some (f, p) ->
    nthZ (packed_layout (m_dim mA) DA) idA = Some (fm_pi M f, fm_pt M f p) -> xB idB = fm_sg M f * xA idA.
(** The pressure vector yB holds the image of the pressure that yA holds. *)
Definition maps_pressure (M : fmap) (DA DB : dec) (yA yB : vec) : Prop :=
  forall idA idB p, nthZ (field_layout DB 3) idB = Some p -> nthZ (field_layout DA 3) idA = Some (fm_pt M 3%Z p) -> yB idB = fm_pf M * yA idA.
(** ... up to a constant. *)
Definition maps_pressure_up_to_constant (M : fmap) (DA DB : dec) (yA yB : vec) : Prop := exists a, maps_pressure M DA DB yA (fun i => yB i + a).

(** * Plane flows *)
(** The three-dimensional mesh mB has, in the first two directions, the cells of
    the two-dimensional mesh mA. In the third direction it has any cells. *)
Definition extruded (mA mB : mesh) : Prop :=
  m_dim mA = 2%Z /\ m_dim mB = 3%Z /\
  forall d, (0 <= d < 2)%Z -> m_n mB 3 d = m_n mA 3 d /\ periodic_dir mB d = periodic_dir mA d /\
    forall i, (0 <= i < m_n mA 3 d)%Z -> wid mB 3 d i = wid mA 3 d i.
(** In the first two directions the boundary conditions of the first two
    components are the same, and the third component is 0 where it is
    prescribed. The third direction is periodic, or its boundaries are planes of
    symmetry: nothing flows through them and they do not hold the flow along
    them. *)
Definition extruded_bc (mB : mesh) (tyA tyB : Z -> Z -> bctype) (vaA vaB : Z -> Z -> R) : Prop :=
  (forall f loc, (0 <= f < 2)%Z -> (0 <= loc < 4)%Z -> tyB f loc = tyA f loc /\ vaB f loc = vaA f loc) /\
  (forall loc, (0 <= loc < 4)%Z -> tyB 2%Z loc = CONVECTIVE \/ vaB 2%Z loc = 0) /\
  (periodic_dir mB 2 = false -> forall loc, (4 <= loc < 6)%Z ->
     (tyB 2%Z loc = DIRICHLET /\ vaB 2%Z loc = 0) /\ forall f, (0 <= f < 2)%Z -> tyB f loc = NEUMANN /\ vaB f loc = 0).
(** The same time step, viscosity and schemes. The pressure may be pinned in one
    and not in the other. *)
Definition same_scheme (PA PB : nspar) : Prop :=
  p_dt PB = p_dt PA /\ p_nu PB = p_nu PA /\ p_bn PB = p_bn PA /\ p_dimp PB = p_dimp PA /\ p_cexp PB = p_cexp PA /\ p_dexp PB = p_dexp PA.
(** The velocity xB is xA in every plane, and its third component is 0. *)
Definition plane_velocity (mA : mesh) (DA : dec) (mB : mesh) (DB : dec) (xA xB : vec) : Prop :=
  (forall idA idB f i j k, (0 <= f < 2)%Z -> nthZ (packed_layout (m_dim mB) DB) idB = Some (f, (i, j, k)) ->
     nthZ (packed_layout (m_dim mA) DA) idA = Some (f, (i, j, 0%Z)) -> xB idB = xA idA) /\
  (forall idB p, nthZ (packed_layout (m_dim mB) DB) idB = Some (2%Z, p) -> xB idB = 0).
(** The pressure yB is yA in every plane, up to a constant. *)
Definition plane_pressure (DA DB : dec) (yA yB : vec) : Prop :=
  exists a, forall idA idB i j k, nthZ (field_layout DB 3) idB = Some (i, j, k) -> nthZ (field_layout DA 3) idA = Some (i, j, 0%Z) -> yB idB + a = yA idA.
(** The process grid does not cut the first two directions, and they are not
    periodic. *)
Definition whole_planes (m : mesh) (D : dec) : Prop := forall f, (0 <= f < 2)%Z -> ds_np D f = 1%Z /\ periodic_dir m f = false.

(** * Changes of axes and of units *)
(** Direction d of the second run is direction [fr_axis d] of the first one,
    reversed if [fr_flip d]; [fr_back] is the inverse of [fr_axis]. Lengths are
    [fr_len] times, velocities [fr_vel] times as large. *)
Record frame := mkFrame { fr_axis : Z -> Z; fr_back : Z -> Z; fr_flip : Z -> bool; fr_len : R; fr_vel : R }.
Definition frame_ok (dim : Z) (F : frame) : Prop :=
  (forall d, (0 <= d < 3)%Z -> (0 <= fr_axis F d < 3)%Z /\ (0 <= fr_back F d < 3)%Z /\ fr_back F (fr_axis F d) = d /\ fr_axis F (fr_back F d) = d) /\
  (forall d, (0 <= d < dim)%Z -> (0 <= fr_axis F d < dim)%Z) /\ 0 < fr_len F /\ 0 < fr_vel F.
Definition sign (F : frame) (d : Z) : R := if fr_flip F d then -1 else 1.
(** The cells of mB are those of mA, renamed, reversed and scaled. Periodic
    directions are not reversed. *)
Definition framed (F : frame) (mA mB : mesh) : Prop :=
  m_dim mB = m_dim mA /\
  (forall d, (0 <= d < 3)%Z -> periodic_dir mB d = periodic_dir mA (fr_axis F d) /\ (fr_flip F d = true -> periodic_dir mB d = false)) /\
  forall d, (0 <= d < m_dim mA)%Z -> m_n mB 3 d = m_n mA 3 (fr_axis F d) /\
    forall i, (0 <= i < m_n mB 3 d)%Z -> wid mB 3 d i = fr_len F * wid mA 3 (fr_axis F d) (if fr_flip F d then m_n mB 3 d - 1 - i else i)%Z.
(** The boundary of the first run that is boundary loc of the second. *)
Definition frame_loc (F : frame) (loc : Z) : Z :=
  (2 * fr_axis F (loc_dir loc) + (if fr_flip F (loc_dir loc) then 1 - loc mod 2 else loc mod 2))%Z.
(** The same boundary conditions: prescribed velocities, slopes and outflow
    speeds are those of the first run in the other axes and units. *)
Definition framed_bc (F : frame) (m : mesh) (tyA tyB : Z -> Z -> bctype) (vaA vaB : Z -> Z -> R) : Prop :=
  forall f loc, (0 <= f < m_dim m)%Z -> (0 <= loc < m_dim m * 2)%Z -> tyB f loc = tyA (fr_axis F f) (frame_loc F loc) /\
    match tyB f loc with
    | DIRICHLET => vaB f loc = fr_vel F * sign F f * vaA (fr_axis F f) (frame_loc F loc)
    | NEUMANN => vaB f loc = fr_vel F / fr_len F * sign F f * sign F (loc_dir loc) * vaA (fr_axis F f) (frame_loc F loc)
    | CONVECTIVE => vaB f loc = fr_vel F * sign F (loc_dir loc) * vaA (fr_axis F f) (frame_loc F loc)
    | _ => True
    end.
(** The same schemes; time step and viscosity in the other units. *)
Definition framed_scheme (F : frame) (PA PB : nspar) : Prop :=
  p_dt PB = fr_len F / fr_vel F * p_dt PA /\ p_nu PB = fr_len F * fr_vel F * p_nu PA /\ p_bn PB = p_bn PA /\
  p_dimp PB = p_dimp PA /\ p_cexp PB = p_cexp PA /\ p_dexp PB = p_dexp PA.
(** The point of the first run that is point p of the second, for a field that
    has n points in the directions of the second run. *)
Definition frame_point (F : frame) (n : Z -> Z) (p : pt) : pt :=
  let c d := (if fr_flip F d then n d - 1 - pc p d else pc p d)%Z in (c (fr_back F 0), c (fr_back F 1), c (fr_back F 2)).
Definition framed_velocity (F : frame) (mA : mesh) (DA : dec) (mB : mesh) (DB : dec) (xA xB : vec) : Prop :=
  forall idA idB f p, nthZ (packed_layout (m_dim mB) DB) idB = Some (f, p) ->
    nthZ (packed_layout (m_dim mA) DA) idA = Some (fr_axis F f, frame_point F (m_n mB f) p) -> xB idB = fr_vel F * sign F f * xA idA.
(** ... pressures (over the density) in the other units, up to a constant. *)
Definition framed_pressure (F : frame) (mB : mesh) (DA DB : dec) (yA yB : vec) : Prop :=
  exists a, forall idA idB p, nthZ (field_layout DB 3) idB = Some p -> nthZ (field_layout DA 3) idA = Some (frame_point F (m_n mB 3) p) ->
    yB idB + a = fr_vel F * fr_vel F * yA idA.
(** The process grid does not cut the domain, and no direction is periodic. *)
Definition whole_domain (m : mesh) (D : dec) : Prop := forall f, (0 <= f < m_dim m)%Z -> ds_np D f = 1%Z /\ periodic_dir m f = false.
(** The reflection in direction d. *)
Definition mirror (d : Z) : frame := mkFrame (fun e => e) (fun e => e) (fun e => (e =? d)%Z) 1 1.
(** Other units, the same axes. *)
Definition units (L V : R) : frame := mkFrame (fun e => e) (fun e => e) (fun _ => false) L V.
