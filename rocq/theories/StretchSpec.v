(** Specification vocabulary for bodies on stretched meshes. *)
From Verif Require Import Prelude ZSum RSum TypesModel GridModel GridSpec IndexModel IndexSpec BoundaryModel BoundarySpec OperatorModel OperatorSpec BodyModel BodySpec DeltaModel DeltaSpec.
Local Open Scope R_scope.

(** Point i of body b is one of the points of rank r. *)
Definition kept_by (bodies : list (body * list (list R))) (b i r : Z) : Prop :=
  exists bc, nthZ bodies b = Some bc /\ (b_bg (fst bc) r <= i < b_bg (fst bc) r + b_l (fst bc) r)%Z.

(** The widths [h] are those stored for the x-velocity at the cell of the first
    point of body b on rank r. *)
Definition first_widths (m : mesh) (bodies : list (body * list (list R))) (b r : Z) (h : Z -> R) : Prop :=
  exists bc X, nthZ bodies b = Some bc /\ nthZ (snd bc) (b_bg (fst bc) r) = Some X /\
    forall d, (0 <= d < m_dim m)%Z -> exists k, cell_of m d k (xc X d) /\ h d = wid m 0 d k.

(** The indices of p are within w of those of the cell of X. *)
Definition windowed (m : mesh) (w : Z) (X : list R) (p : pt) : Prop :=
  forall d k, (0 <= d < m_dim m)%Z -> cell_of m d k (xc X d) -> (Z.abs (pc p d - k) <= w)%Z.
