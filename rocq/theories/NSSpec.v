(** Specification vocabulary for the Navier-Stokes solver. *)
From Verif Require Import Prelude ZSum RSum TypesModel GridModel IndexModel BoundaryModel OperatorModel OperatorSpec MatModel NSModel.
Local Open Scope R_scope.

(** The state after k calls of advance. *)
Fixpoint ns_steps (m : mesh) (D : dec) (P : nspar) (ops : nsops) (conv : boundary -> vec -> res vec)
    (vsolve psolve : vec -> vec -> vec) (k : nat) (s : nsstate) : res nsstate :=
  match k with
  | 0%nat => Ok s
  | S k' => do s' <- ns_steps m D P ops conv vsolve psolve k' s; advance m D P ops conv vsolve psolve s'
  end.

(** x solves the n x n system A x = b. *)
Definition solves (n : Z) (A : mat) (x b : vec) : Prop := forall i, (0 <= i < n)%Z -> mvec n A x i = b i.
(** Sum of the first n entries. *)
Definition total (n : Z) (b : vec) : R := zsum b 0 n.

(** The explicit terms of one step, evaluated at a state: minus the convection
    term, and nu (L u + Lbc). *)
Definition convection_term (conv : boundary -> vec -> res vec) (s : nsstate) : res vec :=
  do c <- conv (s_bc s) (s_U s); Ok (vscale (-1) c).
Definition diffusion_term (m : mesh) (D : dec) (P : nspar) (ops : nsops) (s : nsstate) : res vec :=
  do c <- correction_mult m (nranks D) (o_L ops) (s_bc s);
  Ok (vscale (p_nu P) (vaxpy c 1 (mvec (n_velocity m) (entry (op_log (o_L ops))) (s_U s)))).
(** Entry i of the sum of the stored vectors times their coefficients. *)
Definition weighted (coeffs : list R) (h : list vec) (i : Z) : R :=
  zsum (fun j => match nthZ coeffs j, nthZ h j with Some c, Some v => c * v i | _, _ => 0 end) 0 (lenZ h).
