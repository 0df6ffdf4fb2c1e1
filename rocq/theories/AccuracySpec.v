(** Specification vocabulary for the accuracy of the discrete operators. *)
From Verif Require Import Prelude ZSum RSum TypesModel GridModel GridSpec IndexModel IndexSpec
  BoundaryModel BoundarySpec OperatorModel OperatorSpec BodyModel BodySpec DeltaModel DeltaSpec.
Local Open Scope R_scope.

(** A place in space; its coordinates; the place with one coordinate changed. *)
Definition spot : Type := (R * R * R)%type.
Definition sc (s : spot) (d : Z) : R := let '(a, b, c) := s in if (d =? 0)%Z then a else if (d =? 1)%Z then b else c.
Definition put (s : spot) (d : Z) (x : R) : spot :=
  let '(a, b, c) := s in if (d =? 0)%Z then (x, b, c) else if (d =? 1)%Z then (a, x, c) else (a, b, x).

(** Where point p of field f is (in two dimensions, in the plane z = 0). *)
Definition site (m : mesh) (f : Z) (p : pt) : spot :=
  (crd m f 0 (pc p 0), crd m f 1 (pc p 1), if (m_dim m =? 3)%Z then crd m f 2 (pc p 2) else 0).

(** The places within r d of s0 along every direction d. *)
Definition around (m : mesh) (s0 : spot) (r : Z -> R) (s : spot) : Prop :=
  forall d, (0 <= d < 3)%Z -> Rabs (sc s d - sc s0 d) <= (if (d <? m_dim m)%Z then r d else 0).

(** g' is the derivative of g along direction d at the places of A. *)
Definition partial_derivative (A : spot -> Prop) (d : Z) (g g' : spot -> R) : Prop :=
  forall s, A s -> derivable_pt_lim (fun t => g (put s d t)) (sc s d) (g' s).
(** [der l] are the derivatives of g at the places of A up to order n: the one
    along d of the derivative l is [der (d :: l)]. *)
Definition derivatives (m : mesh) (A : spot -> Prop) (n : nat) (g : spot -> R) (der : list Z -> spot -> R) : Prop :=
  (forall s, der [] s = g s) /\
  forall l d, (length l < n)%nat -> Forall (fun e => 0 <= e < m_dim m)%Z l -> (0 <= d < m_dim m)%Z ->
    partial_derivative A d (der l) (der (d :: l)).

(** g repeats with the length of the domain in the periodic directions. *)
Definition repeating (m : mesh) (g : spot -> R) : Prop :=
  forall d s, (0 <= d < m_dim m)%Z -> periodic_dir m d = true -> g (put s d (sc s d + (m_max m d - m_min m d))) = g s.

(** x, y hold the velocity field v, the pressure field q at the points of the
    mesh. *)
Definition velocity_of (m : mesh) (D : dec) (v : Z -> spot -> R) (x : Z -> R) : Prop :=
  forall id f p, nthZ (packed_layout (m_dim m) D) id = Some (f, p) -> x id = v f (site m f p).
Definition pressure_of (m : mesh) (D : dec) (q : spot -> R) (y : Z -> R) : Prop :=
  forall id p, nthZ (field_layout D 3) id = Some p -> y id = q (site m 3 p).

(** Point p of field f is not next to a wall. *)
Definition off_walls (m : mesh) (f : Z) (p : pt) : Prop :=
  forall d, (0 <= d < m_dim m)%Z -> periodic_dir m d = false -> (1 <= pc p d <= m_n m f d - 2)%Z.

(** Size of a cell. *)
Definition cell_size (m : mesh) (p : pt) : R :=
  wid m 3 0 (pc p 0) * wid m 3 1 (pc p 1) * (if (m_dim m =? 3)%Z then wid m 3 2 (pc p 2) else 1).

(** The cell of p and the cells next to it have width [h d] along every
    direction d. *)
Definition even_cells (m : mesh) (p : pt) (h : Z -> R) : Prop :=
  forall d j, (0 <= d < m_dim m)%Z -> (0 <= j < m_n m 3 d)%Z -> near_cell m d 1 (pc p d) j -> wid m 3 d j = h d.

(** Width of cell k along direction d, counted around a periodic direction. *)
Definition cell_width (m : mesh) (d k : Z) : R := wid m 3 d (wrap (m_n m 3 d) k).
