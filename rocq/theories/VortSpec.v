(** Specification vocabulary for the vorticity utility. *)
From Coq Require Import String.
From Verif Require Import Prelude ZSum RSum TypesModel GridModel IndexModel IndexSpec BoundaryModel BoundarySpec
  OperatorModel OperatorSpec MatModel NSModel ConvModel ConvSpec NameModel DriverModel DriverSpec.
Local Open Scope R_scope.

(** x -> y -> z -> x *)
Definition next_dir (a : Z) : Z := if (a =? 2)%Z then 0%Z else (a + 1)%Z.

(** A point of the component of the vorticity along direction a: a cell index
    along a, vertex indices along the two other directions. *)
Definition vort_point (m : mesh) (a : Z) (p : pt) : Prop :=
  forall d, (0 <= d < 3)%Z -> (0 <= pc p d < if (d =? a)%Z then m_n m 3 d else m_n m 3 d + 1)%Z.
(** Number of such points along the three directions. *)
Definition vort_sizes (m : mesh) (a d : Z) : Z := if (d =? a)%Z then m_n m 3 d else (m_n m 3 d + 1)%Z.

(** Their coordinates: cell centres along a, vertices along the others. *)
Definition vort_crd (m : mesh) (a d i : Z) : R := if (d =? a)%Z then crd m 3 d i else crd m 4 d i.
(** Group of their coordinates in the grid file. *)
Definition vort_group (a : Z) : string := (if (a =? 0)%Z then "wx" else if (a =? 1)%Z then "wy" else "wz")%string.

(** Circulation of u around such a point, per unit area. With b, c the two
    other directions, velocity component c lies at vertex index p_c, between
    the vertices, that is at its own index p_c - 1; along b its points p_b - 1
    and p_b are on the two sides of vertex p_b. *)
Definition curl (m : mesh) (u : Z -> pt -> R) (a : Z) (p : pt) : R :=
  let b := next_dir a in let c := next_dir b in
  (u c (shift p c (-1)) - u c (shift (shift p c (-1)) b (-1))) / (crd m c b (pc p b) - crd m c b (pc p b - 1))
  - (u b (shift p b (-1)) - u b (shift (shift p b (-1)) c (-1))) / (crd m b c (pc p c) - crd m b c (pc p c - 1)).

(** The direction of the k-th stored component, and the name of its dataset. *)
Definition vort_dir (dim k : Z) : Z := if (dim =? 2)%Z then 2%Z else k.
Definition vort_name (a : Z) : string := (if (a =? 0)%Z then "/wx" else if (a =? 1)%Z then "/wy" else "/wz")%string.

(** The vertex is not on a non-periodic boundary. *)
Definition inner_vertex (m : mesh) (a : Z) (p : pt) : Prop :=
  vort_point m a p /\
  forall d, (0 <= d < m_dim m)%Z -> d <> a -> periodic_dir m d = true \/ (1 <= pc p d <= m_n m 3 d - 1)%Z.
(** The vertex is on a non-periodic boundary normal to d, not at the ends of
    that boundary, and the boundary is not cut by the decomposition along the
    other direction of the plane. *)
Definition wall_vertex (m : mesh) (D : dec) (a d : Z) (p : pt) : Prop :=
  vort_point m a p /\ (0 <= d < m_dim m)%Z /\ d <> a /\ periodic_dir m d = false /\ (pc p d = 0 \/ pc p d = m_n m 3 d)%Z /\
  forall e, (0 <= e < m_dim m)%Z -> e <> d -> e <> a -> ds_np D e = 1%Z /\ (1 <= pc p e <= m_n m 3 e - 1)%Z.

(** The solution file has the velocity components and the pressure, each of the
    right length. *)
Definition readable (m : mesh) (F : file) : Prop :=
  (forall f, (0 <= f < m_dim m)%Z -> exists l, f_sets F (set_name f) = Some l /\ lenZ l = npoints (m_n m f)) /\
  exists l, f_sets F "/p" = Some l /\ lenZ l = npoints (m_n m 3).
(** Value of component f at point p in a solution file. *)
Definition in_file (m : mesh) (F : file) (f : Z) (p : pt) (v : R) : Prop :=
  exists l, f_sets F (set_name f) = Some l /\ nthZ l (natural (m_n m f) p) = Some v.
(** u is the velocity in the file, continued periodically in the periodic
    directions. *)
Definition stored_velocity (m : mesh) (F : file) (u : Z -> pt -> R) : Prop :=
  forall f q, (0 <= f < m_dim m)%Z -> in_frame (m_n m f) q -> has_image (m_n m f) (periodic_dir m) q = true ->
    in_file m F f (image (m_n m f) q) (u f q).
(** The dataset of the component along a holds, in natural order, values that
    satisfy [w]. *)
Definition holds_vorticity (m : mesh) (a : Z) (w : pt -> R -> Prop) (F : file) : Prop :=
  exists l, f_sets F (vort_name a) = Some l /\ lenZ l = npoints (vort_sizes m a) /\
    forall p, vort_point m a p -> exists v, nthZ l (natural (vort_sizes m a) p) = Some v /\ w p v.
(** F' is F with vorticity datasets added or replaced. *)
Definition only_vorticity (m : mesh) (F F' : file) : Prop :=
  f_time F' = f_time F /\ f_text F' = f_text F /\
  forall nm, (forall k, (0 <= k < (if m_dim m =? 2 then 1 else 3))%Z -> nm <> vort_name (vort_dir (m_dim m) k)) -> f_sets F' nm = f_sets F nm.

(** A velocity that is linear in the coordinates: component f is
    c f + sum over d of g f d * x_d. *)
Definition linear_velocity (m : mesh) (c : Z -> R) (g : Z -> Z -> R) (f : Z) (p : pt) : R :=
  c f + zsum (fun d => g f d * crd m f d (pc p d)) 0 (m_dim m).

(** Area of the rectangle of velocity points around a vertex. *)
Definition dual_area (m : mesh) (a : Z) (p : pt) : R :=
  let b := next_dir a in let c := next_dir b in
  (crd m c b (pc p b) - crd m c b (pc p b - 1)) * (crd m b c (pc p c) - crd m b c (pc p c - 1)).
(** Circulation along the boundary of the union of those rectangles, for the
    vertices with b0 <= index < b1 along b and c0 <= index < c1 along c. *)
Definition circulation (m : mesh) (u : Z -> pt -> R) (a : Z) (p : pt) (b0 b1 c0 c1 : Z) : R :=
  let b := next_dir a in let c := next_dir b in
  zsum (fun k => (u c (setc (setc p c (k - 1)) b (b1 - 1)) - u c (setc (setc p c (k - 1)) b (b0 - 1)))
                 * (crd m b c k - crd m b c (k - 1))) c0 c1
  - zsum (fun j => (u b (setc (setc p b (j - 1)) c (c1 - 1)) - u b (setc (setc p b (j - 1)) c (c0 - 1)))
                   * (crd m c b j - crd m c b (j - 1))) b0 b1.
