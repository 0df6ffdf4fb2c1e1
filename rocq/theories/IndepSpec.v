(** Specification vocabulary for the comparison of two runs of an
    immersed-boundary solver with two sets of linear solvers. *)
From Coq Require Import String.
From Verif Require Import Prelude ZSum RSum TypesModel GridModel IndexModel IndexSpec BoundaryModel BoundarySpec OperatorModel OperatorSpec MatModel
  NSModel NSSpec BodyModel DeltaModel DeltaSpec IbpmModel IbpmSpec.
Local Open Scope R_scope.

(** Two vectors of length n have the same entries. *)
Definition same_entries (n : Z) (x y : vec) : Prop := forall i, (0 <= i < n)%Z -> x i = y i.
(** ... up to a constant. *)
Definition same_up_to_constant (n : Z) (x y : vec) : Prop := exists a, forall i, (0 <= i < n)%Z -> x i = y i + a.

(** The linear solvers return solutions of the two systems of the step of the
    coupled solver that starts from s. *)
Definition coupled_exact_step (m : mesh) (D : dec) (P : nspar) (O : ibops) (conv : boundary -> vec -> res vec)
    (vs ps : vec -> vec -> vec) (s : nsstate) : Prop :=
  forall rhs1 s1 rhs2,
    rhs_velocity (ib_n O) m D P (ib_ns O) conv (begun P s) = Ok (rhs1, s1) ->
    ib_assembleRHSPoisson m D P O (vs (s_U s) rhs1) (s_bc s1) = Ok rhs2 ->
    solves (n_velocity m) (o_A (ib_ns O)) (vs (s_U s) rhs1) rhs1 /\ solves (ib_n O) (o_DBNG (ib_ns O)) (ps (s_dP s) rhs2) rhs2.
(** The same for the three systems of a step of the decoupled solver, with
    [nf] forces and the right-hand side [rhs_f] of the forces. *)
Definition decoupled_exact_step (m : mesh) (D : dec) (P : nspar) (O : nsops) (X : dops) (nf : Z) (conv : boundary -> vec -> res vec)
    (rhs_f : vec -> vec) (vs ps fs : vec -> vec -> vec) (x : dstate) : Prop :=
  forall rhs0 s1 rhs2,
    rhs_velocity (n_pressure m) m D P O conv (begun P (x_ns x)) = Ok (rhs0, s1) ->
    let rhs1 := vaxpy rhs0 1 (mvec nf (di_H X) (x_f x)) in
    let U1 := vs (s_U (x_ns x)) rhs1 in
    let df := fs (x_df x) (rhs_f U1) in
    assembleRHSPoisson m D P O (vaxpy U1 1 (mvec nf (di_BNH X) df)) (s_bc s1) = Ok rhs2 ->
    solves (n_velocity m) (o_A O) U1 rhs1 /\ solves nf (di_EBNH X) df (rhs_f U1) /\ solves (n_pressure m) (o_DBNG O) (ps (s_dP (x_ns x)) rhs2) rhs2.
(** ... and of a step with moving bodies. *)
Definition moving_exact_step (m : mesh) (D : dec) (P : nspar) (O : nsops) (name : string) (mo : motion) (conv : boundary -> vec -> res vec)
    (vs ps : vec -> vec -> vec) (fsolve : mat -> vec -> vec -> vec) (s : rstate) : Prop :=
  forall s1, moveBodies m D P O name mo (s_t (x_ns (r_x s)) + p_dt P) s = Ok s1 ->
    decoupled_exact_step m D P O (r_ops s1) (n_forces m (r_bodies s1)) conv (r_assembleRHSForces m (r_ops s1) (r_UB s1)) vs ps (fsolve (r_solver s1)) (r_x s1).

(** Every step of the first k steps from s0 has the property. *)
Definition along {A} (step : A -> res A) (good : A -> Prop) (s0 : A) (k : nat) : Prop :=
  forall j s, (j < k)%nat -> run_steps step j s0 = Ok s -> good s.

(** Only zero forces spread to nothing. *)
Definition forces_felt (m : mesh) (nf : Z) (X : dops) : Prop :=
  forall d, (forall i, (0 <= i < n_velocity m)%Z -> mvec nf (di_H X) d i = 0) -> forall r, (0 <= r < nf)%Z -> d r = 0.

(** Any two points of the bodies are further apart than the kernel reaches, in
    some direction. *)
Definition far_apart (m : mesh) (h : Z -> R) (rad : R) (bodies : list (body * list (list R))) : Prop :=
  forall b i X b' i' X', located bodies b i X -> located bodies b' i' X' -> (b, i) <> (b', i') ->
    exists d, (0 <= d < m_dim m)%Z /\ 2 * rad * h d <= Rabs (xc X d - xc X' d).

(** Same time, same step, same velocity and same explicit history. *)
Definition same_flow (m : mesh) (s1 s2 : nsstate) : Prop :=
  s_t s1 = s_t s2 /\ s_ite s1 = s_ite s2 /\ same_entries (n_velocity m) (s_U s1) (s_U s2) /\
  Forall2 (same_entries (n_velocity m)) (s_conv s1) (s_conv s2) /\ Forall2 (same_entries (n_velocity m)) (s_diff s1) (s_diff s2).
