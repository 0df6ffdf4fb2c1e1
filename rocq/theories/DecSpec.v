(** Specification vocabulary for the comparison of two runs of the
    Navier-Stokes solver on two process grids, or with two linear solvers. *)
From Verif Require Import Prelude ZSum RSum TypesModel GridModel IndexModel IndexSpec BoundaryModel BoundarySpec OperatorModel OperatorSpec MatModel
  NSModel NSSpec ConvModel ConvSpec.
Local Open Scope R_scope.

(** Two pressure vectors, distributed according to two decompositions of the
    same mesh, hold the same field. *)
Definition same_pressure (D1 D2 : dec) (x1 x2 : vec) : Prop :=
  forall id1 id2 p, nthZ (field_layout D1 3) id1 = Some p -> nthZ (field_layout D2 3) id2 = Some p -> x1 id1 = x2 id2.
(** ... up to a constant. *)
Definition same_pressure_up_to_constant (D1 D2 : dec) (x1 x2 : vec) : Prop := exists a, same_pressure D1 D2 x1 (fun i => x2 i + a).

(** The linear solvers return exact solutions in the step that starts from s. *)
Definition exact_step (m : mesh) (D : dec) (P : nspar) (ops : nsops) (conv : boundary -> vec -> res vec)
    (vs ps : vec -> vec -> vec) (s : nsstate) : Prop :=
  forall rhs1 s1 rhs2,
    assembleRHSVelocity m D P ops conv (mkNS (s_t s + p_dt P) (s_ite s + 1) (s_U s) (s_p s) (s_dP s) (s_conv s) (s_diff s) (s_bc s)) = Ok (rhs1, s1) ->
    assembleRHSPoisson m D P ops (vs (s_U s) rhs1) (s_bc s1) = Ok rhs2 ->
    solves (n_velocity m) (o_A ops) (vs (s_U s) rhs1) rhs1 /\ solves (n_pressure m) (o_DBNG ops) (ps (s_dP s) rhs2) rhs2.
(** ... in the first k steps from s0. *)
Definition exact_run (m : mesh) (D : dec) (P : nspar) (ops : nsops) (conv : boundary -> vec -> res vec)
    (vs ps : vec -> vec -> vec) (s0 : nsstate) (k : nat) : Prop :=
  forall j s, (j < k)%nat -> ns_steps m D P ops conv vs ps j s0 = Ok s -> exact_step m D P ops conv vs ps s.

(** Two convection operators on two decompositions agree: the same field and
    the same boundary calls give the same result. *)
Definition conv_agree (m : mesh) (D1 D2 : dec) types values (conv1 conv2 : boundary -> vec -> res vec) : Prop :=
  forall h1 h2 B1 B2 x1 x2 y1 y2,
    boundary_after m D1 types values h1 B1 -> boundary_after m D2 types values h2 B2 -> Forall2 (same_call m D1 D2) h1 h2 -> has_ics h1 ->
    same_velocity m D1 D2 x1 x2 -> conv1 B1 x1 = Ok y1 -> conv2 B2 x2 = Ok y2 -> same_velocity m D1 D2 y1 y2.

(** Nothing flows through the boundaries that are not periodic: the normal
    velocity is prescribed there, and is 0. The tangential velocities are free
    (a moving lid, a slip wall). *)
Definition impermeable (m : mesh) (types : Z -> Z -> bctype) (values : Z -> Z -> R) : Prop :=
  forall f loc, (0 <= f < m_dim m)%Z -> (0 <= loc < m_dim m * 2)%Z -> (loc / 2 = f)%Z -> periodic_dir m f = false ->
    types f loc = DIRICHLET /\ values f loc = 0.
