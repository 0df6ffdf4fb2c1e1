(** Specification vocabulary for the regularised delta functions. *)
From Coq Require Import String.
From Verif Require Import Prelude ZSum RSum TypesModel GridModel GridSpec IndexModel IndexSpec BoundaryModel BoundarySpec
  OperatorModel OperatorSpec BodyModel BodySpec DeltaModel.
Local Open Scope R_scope.

(** Half-width of the support, in cell widths, as published for the kernels. *)
Definition radius (name : string) : R := if (name =? "ROMA_ET_AL_1999")%string then 3/2 else 2.

(** The value of a kernel. *)
Definition kval (K : kernel) (r h : R) : R := ok_or 0 (K r h).

(** The integers lo <= k < hi contain every translate of the kernel that
    reaches x (spacing h, support rad cells). *)
Definition covers (rad h x : R) (lo hi : Z) : Prop :=
  forall k, ~ (lo <= k < hi)%Z -> rad * h <= Rabs (x - IZR k * h).

(** * The operator *)
(** Every cell of the mesh has width [h d] along direction d. *)
Definition uniform (m : mesh) (h : Z -> R) : Prop :=
  forall d, (0 <= d < m_dim m)%Z ->
    m_max m d - m_min m d = IZR (m_n m 3 d) * h d /\ forall i, (0 <= i < m_n m 3 d)%Z -> wid m 3 d i = h d.

(** Cell k of the mesh along direction d holds the coordinate x: it is between
    the vertices k and k+1. *)
Definition cell_of (m : mesh) (d k : Z) (x : R) : Prop :=
  (0 <= k < m_n m 3 d)%Z /\ crd m 4 d k <= x < crd m 4 d (k + 1).

(** Cell j is cell k or one of the w cells on either side of it, counted around
    the domain in a periodic direction. *)
Definition near_cell (m : mesh) (d w k j : Z) : Prop :=
  (Z.abs (j - k) <= w)%Z \/
  periodic_dir m d = true /\ ((Z.abs (j + m_n m 3 d - k) <= w)%Z \/ (Z.abs (j - m_n m 3 d - k) <= w)%Z).

Definition any_periodic (m : mesh) : Prop := exists d, (0 <= d < m_dim m)%Z /\ periodic_dir m d = true.

(** With periodic directions: every component has at least as many points as
    the window of the kernel (5 or 7). *)
Definition wide_enough (m : mesh) (window : Z) : Prop :=
  any_periodic m -> forall f d, (0 <= f < m_dim m)%Z -> (0 <= d < m_dim m)%Z -> (2 * window + 1 <= m_n m f d)%Z.

(** Bodies with their coordinates: as many rows of [dim] numbers as points. *)
Definition bodies_ok (m : mesh) (D : dec) (bodies : list (body * list (list R))) : Prop :=
  pack_ok (nranks D) (m_dim m) (map fst bodies) /\
  Forall (fun bc => lenZ (snd bc) = b_nPts (fst bc) /\ Forall (fun row => lenZ row = m_dim m) (snd bc)) bodies.

(** Point i of body b is at X. *)
Definition located (bodies : list (body * list (list R))) (b i : Z) (X : list R) : Prop :=
  exists bc, nthZ bodies b = Some bc /\ nthZ (snd bc) i = Some X.

Definition xc (X : list R) (d : Z) : R := match nthZ X d with Some x => x | None => 0 end.

(** The mesh may be stretched, but around every point of the bodies its cells
    have width [h d] along direction d: the cell of the point and w cells on
    either side. *)
Definition uniform_around (m : mesh) (h : Z -> R) (w : Z) (bodies : list (body * list (list R))) : Prop :=
  (forall d, (0 <= d < m_dim m)%Z -> 0 < h d) /\
  forall b i X d k j, located bodies b i X -> (0 <= d < m_dim m)%Z -> cell_of m d k (xc X d) ->
    (0 <= j < m_n m 3 d)%Z -> near_cell m d w k j -> wid m 3 d j = h d.

(** The product of the kernel over the directions, between X and the point p of
    component f. *)
Definition kernel_at (m : mesh) (K : kernel) (h : Z -> R) (f : Z) (X : list R) (p : pt) : R :=
  if (m_dim m =? 3)%Z
  then kval K (xc X 0 - crd m f 0 (pc p 0)) (h 0%Z) * kval K (xc X 1 - crd m f 1 (pc p 1)) (h 1%Z)
       * kval K (xc X 2 - crd m f 2 (pc p 2)) (h 2%Z)
  else kval K (xc X 0 - crd m f 0 (pc p 0)) (h 0%Z) * kval K (xc X 1 - crd m f 1 (pc p 1)) (h 1%Z).

(** X is at least rad cells away from the boundary. *)
Definition clear (m : mesh) (h : Z -> R) (rad : R) (X : list R) : Prop :=
  forall d, (0 <= d < m_dim m)%Z -> m_min m d + rad * h d <= xc X d <= m_max m d - rad * h d.

(** Volume of a cell. *)
Definition cell_volume (m : mesh) (h : Z -> R) : R :=
  if (m_dim m =? 3)%Z then h 0%Z * h 1%Z * h 2%Z else h 0%Z * h 1%Z.

(** [x] holds the velocity field (a constant plus a linear function of the
    position, for every component). *)
Definition affine (m : mesh) (a : Z -> R) (g : Z -> Z -> R) (f : Z) (pos : Z -> R) : R :=
  a f + zsum (fun d => g f d * pos d) 0 (m_dim m).
Definition holds_affine (m : mesh) (D : dec) (a : Z -> R) (g : Z -> Z -> R) (x : Z -> R) : Prop :=
  forall id f p, nthZ (packed_layout (m_dim m) D) id = Some (f, p) ->
    x id = affine m a g f (fun d => crd m f d (pc p d)).

(** X is strictly inside the domain. *)
Definition inside_domain (m : mesh) (X : list R) : Prop :=
  forall d, (0 <= d < m_dim m)%Z -> m_min m d < xc X d < m_max m d.

(** The window around the cell k of X never leaves the stored coordinates
    (one ghost beyond either end) in the directions whose number is that of a
    periodic boundary of the x-velocity. *)
Definition in_reach (m : mesh) (types : Z -> Z -> bctype) (window : Z) (X : list R) : Prop :=
  forall d k, (0 <= d < m_dim m)%Z -> types 0%Z d = PERIODIC -> cell_of m d k (xc X d) ->
    (window - 1 <= k)%Z /\ forall c, (0 <= c < m_dim m)%Z -> (k + window <= m_n m c d)%Z.
