(** Specification vocabulary for runs that are resumed with other linear solvers
    or on another process grid. *)
From Verif Require Import Prelude ZSum RSum TypesModel GridModel IndexModel IndexSpec BoundaryModel BoundarySpec OperatorModel OperatorSpec MatModel
  NSModel NSSpec ConvModel ConvSpec NameModel DriverModel DriverSpec DecSpec.
Local Open Scope R_scope.

(** The linear solvers return solutions of the systems they are given in the
    first k steps of the program. *)
Definition exact_program (conf : ioconf) (m : mesh) (D : dec) (P : nspar) (types : Z -> Z -> bctype) (values : Z -> Z -> R)
    (t0 : R) (U0 p0 : vec) (vs ps : vec -> vec -> vec) (d : disk) (k : nat) : Prop :=
  forall ops s, started conf m D P types values t0 U0 p0 d ops s -> exact_run m D P ops (convection m D) vs ps s k.

(** Two states, on two process grids, hold the same time, step, velocity and
    pressure; without a reference pressure, the pressure up to a constant. *)
Definition same_flow (m : mesh) (D1 D2 : dec) (refp : bool) (s1 s2 : nsstate) : Prop :=
  s_t s1 = s_t s2 /\ s_ite s1 = s_ite s2 /\ same_velocity m D1 D2 (s_U s1) (s_U s2) /\
  (if refp then same_pressure D1 D2 (s_p s1) (s_p s2) else same_pressure_up_to_constant D1 D2 (s_p s1) (s_p s2)).

(** The schemes keep at most one explicit convection and one explicit diffusion
    term: all but the second-order Adams-Bashforth scheme. *)
Definition one_level (P : nspar) : Prop := (lenZ (p_cexp P) <= 1 /\ lenZ (p_dexp P) <= 1)%Z.
