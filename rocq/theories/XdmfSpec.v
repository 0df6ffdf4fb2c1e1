(** Specification vocabulary: what a viewer of XDMF files displays. *)
From Coq Require Import String Reals.
From Verif Require Import Prelude ZSum RSum TypesModel GridModel IndexModel IndexSpec BoundaryModel BoundarySpec OperatorModel OperatorSpec MatModel NSModel DriverModel VortModel VortSpec XdmfModel.
Local Open Scope R_scope.

(** The values of a data item: the file and the dataset exist, and there are as
    many values as the dimensions say. *)
Definition size_of (dims : list Z) : Z := fold_right Z.mul 1%Z dims.
Definition item_values (d : disk) (it : ditem) : option (list R) :=
  match it with
  | HDFItem dims path name =>
      match d path with
      | Some F => match f_sets F name with Some l => if (lenZ l =? size_of dims)%Z then Some l else None | None => None end
      | None => None
      end
  | XMLItem dims l => if (lenZ l =? size_of dims)%Z then Some l else None
  end.

(** What is displayed at node (i, j, k) of a grid: a point and a value. The
    topology 3DRectMesh has dimensions (Nz, Ny, Nx); the geometry VXVYVZ gives
    the coordinates along x, y, z, as many as the topology says; the value of
    node (i, j, k) is the entry (k, j, i) of the item of the attribute, in C
    order. Nothing is displayed when an item cannot be read, when the sizes
    disagree or outside of the topology. *)
Definition displayed (d : disk) (g : xgrid) (p : pt) : option (R * R * R * R) :=
  let '(i, j, k) := p in
  match xg_topology g, map (item_values d) (xg_geometry g), item_values d (xg_data g) with
  | [nz; ny; nx], [Some lx; Some ly; Some lz], Some v =>
      if (lenZ lx =? nx)%Z && (lenZ ly =? ny)%Z && (lenZ lz =? nz)%Z && (lenZ v =? nz * ny * nx)%Z then
        match nthZ lx i, nthZ ly j, nthZ lz k with
        | Some x, Some y, Some z => match nthZ v ((k * ny + j) * nx + i) with Some a => Some (x, y, z, a) | None => None end
        | _, _, _ => None
        end
      else None
  | _, _, _ => None
  end.

(** A grid displays a field with n x * n y * n z points at coordinates x d i:
    at every one of them its point and a value that satisfies [val], elsewhere
    nothing. In two dimensions z is 0. *)
Definition displays (d : disk) (g : xgrid) (dim : Z) (n : Z -> Z) (x : Z -> Z -> R) (val : pt -> R -> Prop) : Prop :=
  forall i j k,
    ((0 <= i < n 0)%Z /\ (0 <= j < n 1)%Z /\ (0 <= k < n 2)%Z ->
       exists v, displayed d g (i, j, k) = Some (x 0%Z i, x 1%Z j, (if (dim =? 2)%Z then 0 else x 2%Z k), v) /\ val (i, j, k) v) /\
    (~ ((0 <= i < n 0)%Z /\ (0 <= j < n 1)%Z /\ (0 <= k < n 2)%Z) -> displayed d g (i, j, k) = None).

(** The probes do not write the grid file. *)
Definition probes_off_grid (out : string) (mon : nsstate -> list fsop) : Prop := forall s o, In o (mon s) -> op_path o <> grid_path out.

(** v is the value of field f (velocity component or pressure, 3) of a state at
    point p. *)
Definition field_value (m : mesh) (D : dec) (f : Z) (s : nsstate) (p : pt) (v : R) : Prop :=
  if (f =? 3)%Z then exists i, nthZ (field_layout D 3) i = Some p /\ v = s_p s i
  else exists i, nthZ (packed_layout (m_dim m) D) i = Some (f, p) /\ v = s_U s i.
(** u is the velocity of a state, continued periodically in the periodic
    directions. *)
Definition velocity_of (m : mesh) (D : dec) (s : nsstate) (u : Z -> pt -> R) : Prop :=
  forall f q, (0 <= f < m_dim m)%Z -> in_frame (m_n m f) q -> has_image (m_n m f) (periodic_dir m) q = true ->
    field_value m D f s (image (m_n m f) q) (u f q).
(** The file of a field in a set of XDMF files lists the steps t of the run with
    bg <= t <= ed and step | t, once each, in increasing order. *)
Definition lists_steps (gs : list xgrid) (bg ed step : Z) : Prop :=
  (forall t, In t (map xg_time gs) <-> (bg <= t <= ed)%Z /\ (step | t)%Z) /\
  forall i j g h, (i < j)%Z -> nthZ gs i = Some g -> nthZ gs j = Some h -> (xg_time g < xg_time h)%Z.
