(** Specification vocabulary for the files of the immersed-boundary solvers. *)
From Coq Require Import String.
From Verif Require Import Prelude ZSum RSum TypesModel GridModel GridSpec IndexModel IndexSpec BoundaryModel BoundarySpec
  OperatorModel OperatorSpec MatModel NSModel NSSpec DriverModel DriverSpec BodyModel BodySpec DeltaModel DeltaSpec IbpmModel IbpmSpec.
Local Open Scope R_scope.

(** Two states of the coupled solver hold the same time, step, velocity,
    pressure and forces (one vector) and history. *)
Definition same_coupled (m : mesh) (nf : Z) (s s' : nsstate) : Prop :=
  s_t s = s_t s' /\ s_ite s = s_ite s' /\ veq (n_velocity m) (s_U s) (s_U s') /\ veq (n_pressure m + nf) (s_p s) (s_p s') /\
  Forall2 (veq (n_velocity m)) (s_conv s) (s_conv s') /\ Forall2 (veq (n_velocity m)) (s_diff s) (s_diff s').
(** Two states of the decoupled solver: the fields and the forces. *)
Definition same_decoupled (m : mesh) (nf : Z) (x x' : dstate) : Prop :=
  same_fields m (x_ns x) (x_ns x') /\ veq nf (x_f x) (x_f x').

(** One line of the forces file: the time, then for each body and each
    direction minus the sum over the points of the body of the component of the
    force stored in f. *)
Definition reported (m : mesh) (D : dec) (bodies : list (body * list (list R))) (t : R) (f : vec) (l : list R) : Prop :=
  exists force : Z -> Z -> Z -> R,
    (forall row b i c, nthZ (body_layout (nranks D) (m_dim m) (map fst bodies)) row = Some (b, i, c) -> f row = force b i c) /\
    l = t :: flat_map (fun b => match nthZ bodies b with
                                | Some bc => map (fun c => - zsum (fun i => force b i c) 0 (b_nPts (fst bc))) (zrange 0 (m_dim m))
                                | None => [] end) (zrange 0 (lenZ bodies)).

(** The probes write no solution file. *)
Definition writes_elsewhere {A} (out : string) (mon : A -> list fsop) : Prop :=
  forall s o n, In o (mon s) -> op_path o <> NameModel.solution_path out n.

(** The direction of a velocity unknown, and a number of a line. *)
Definition component (m : mesh) (D : dec) (id : Z) : Z :=
  match nthZ (packed_layout (m_dim m) D) id with Some (f, _) => f | None => -1 end.
Definition column (l : list R) (i : Z) : R := match nthZ l i with Some x => x | None => 0 end.
