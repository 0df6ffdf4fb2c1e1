(** Specification vocabulary for the comparison of two runs of an
    immersed-boundary solver on two process grids. *)
From Coq Require Import String.
From Verif Require Import Prelude ZSum RSum TypesModel GridModel IndexModel IndexSpec BoundaryModel BoundarySpec OperatorModel OperatorSpec MatModel
  NSModel NSSpec ConvModel ConvSpec BodyModel BodySpec DeltaModel DeltaSpec IbpmModel IbpmSpec DecSpec.
Local Open Scope R_scope.

(** The same points, perhaps distributed in two ways. *)
Definition same_points (bs1 bs2 : list (body * list (list R))) : Prop := map snd bs1 = map snd bs2.

(** Two vectors of forces, distributed over two process grids, hold the same
    force for every component of every point. *)
Definition same_forces (m : mesh) (D1 D2 : dec) (bs1 bs2 : list (body * list (list R))) (f1 f2 : vec) : Prop :=
  forall r1 r2 u, nthZ (body_layout (nranks D1) (m_dim m) (map fst bs1)) r1 = Some u ->
    nthZ (body_layout (nranks D2) (m_dim m) (map fst bs2)) r2 = Some u -> f1 r1 = f2 r2.

(** Same time, same step, same velocity and same explicit history. *)
Definition same_flow_on (m : mesh) (D1 D2 : dec) (s1 s2 : nsstate) : Prop :=
  s_t s1 = s_t s2 /\ s_ite s1 = s_ite s2 /\ same_velocity m D1 D2 (s_U s1) (s_U s2) /\
  Forall2 (same_velocity m D1 D2) (s_conv s1) (s_conv s2) /\ Forall2 (same_velocity m D1 D2) (s_diff s1) (s_diff s2).
