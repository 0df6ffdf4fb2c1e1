(** Specification vocabulary: a simulation's mesh, points, ghost points. *)
From Verif Require Import Prelude ZSum RSum TypesModel GridModel GridSpec IndexModel IndexSpec BoundaryModel.
Local Open Scope R_scope.

(** Coordinate and width of a field along a direction (the readable entries are
    given by C03). *)
Definition crd (m : mesh) (f d i : Z) : R := ok_or 0 (m_coord m f d i).
Definition wid (m : mesh) (f d i : Z) : R := ok_or 0 (m_dL m f d i).

(** The mesh of a simulation and its decomposition: built from a valid grid,
    with boundary conditions that agree between components (C05), on a process
    grid that PETSc accepts. *)
Definition mesh_setup (m : mesh) (D : dec) : Prop :=
  exists mn mx per w np,
    grid_ok (m_dim m) mn mx w /\
    createMeshArrays (m_dim m) mn mx per w = Ok m /\
    (forall f d, (0 <= f < m_dim m)%Z -> (0 <= d < m_dim m)%Z -> per f d = per 0%Z d) /\
    (forall d, (0 <= d < 3)%Z -> (1 <= np d)%Z) /\ (m_dim m = 2%Z -> np 2%Z = 1%Z) /\
    createDMDAs (m_dim m) np (m_n m) = Ok D.

(** Is direction d periodic. *)
Definition periodic_dir (m : mesh) (d : Z) : bool := m_periodic m 0%Z d.

(** Points. *)
Definition pt : Type := (Z * Z * Z)%type.
Definition pc (p : pt) (d : Z) : Z :=
  let '(i, j, k) := p in if (d =? 0)%Z then i else if (d =? 1)%Z then j else k.
Definition setc (p : pt) (d x : Z) : pt :=
  let '(i, j, k) := p in if (d =? 0)%Z then (x, j, k) else if (d =? 1)%Z then (i, x, k) else (i, j, x).
Definition shift (p : pt) (d s : Z) : pt := setc p d (pc p d + s)%Z.
Definition st_of (p : pt) : stencil := let '(i, j, k) := p in mkSt k j i 0.

(** Boundary location -> direction, index of the ghost layer, of the layer of
    points next to it. *)
Definition loc_dir (loc : Z) : Z := (loc / 2)%Z.
Definition ghost_layer (n : Z -> Z) (loc : Z) : Z := if (loc mod 2 =? 0)%Z then (-1)%Z else n (loc_dir loc).
Definition inner_layer (n : Z -> Z) (loc : Z) : Z := if (loc mod 2 =? 0)%Z then 0%Z else (n (loc_dir loc) - 1)%Z.

(** q is a ghost point of boundary loc: one step outside normal to it. *)
Definition is_ghost (n : Z -> Z) (loc : Z) (q : pt) : Prop :=
  pc q (loc_dir loc) = ghost_layer n loc /\ interior n (setc q (loc_dir loc) (inner_layer n loc)).
(** The interior point next to it. *)
Definition inner_of (n : Z -> Z) (loc : Z) (q : pt) : pt := setc q (loc_dir loc) (inner_layer n loc).

(** Storage of the ghosted local array of a rank: one extra layer on both sides
    in the simulated directions, i fastest. *)
Definition ghosted_points (dim : Z) (D : dec) (f r : Z) : list pt :=
  box (d_bg D f 0 r - 1) (d_ed D f 0 r + 1) (d_bg D f 1 r - 1) (d_ed D f 1 r + 1)
      (if (dim =? 3)%Z then d_bg D f 2 r - 1 else d_bg D f 2 r)%Z
      (if (dim =? 3)%Z then d_ed D f 2 r + 1 else d_ed D f 2 r)%Z.

(** The boundary types for which ghost equations exist. *)
Definition ghosted_type (ty : bctype) : Prop := ty = DIRICHLET \/ ty = NEUMANN \/ ty = CONVECTIVE.

(** The two directions in the plane of a boundary. *)
Definition perp0 (d : Z) : Z := if (d =? 0)%Z then 1%Z else 0%Z.
Definition perp1 (d : Z) : Z := if (d =? 2)%Z then 1%Z else 2%Z.
