(** Double-precision arithmetic: the simulation time and the mesh coordinates
    as the machine computes them (PetscReal is an IEEE-754 double, rounding to
    nearest, ties to even).  The doubles are Flocq's [binary64]. *)
From Coq Require Import ZArith List Bool.
From Flocq Require Import Core BinarySingleNaN Binary Bits.
Import ListNotations.

(** PetscReal (include/petibm/type.h, PETSc's default real type). *)
Definition dbl := binary64.

(** C++ [+], [-], [/] on doubles, default rounding mode. *)
Definition dadd (x y : dbl) : dbl := b64_plus mode_NE x y.
Definition dsub (x y : dbl) : dbl := b64_minus mode_NE x y.
Definition ddiv (x y : dbl) : dbl := b64_div mode_NE x y.

(** The conversion of a PetscInt to a double, as in [(ed - bg) / n]
    (src/parser/parser.cpp:351). *)
Definition dofZ (n : Z) : dbl := binary_normalize 53 1024 (refl_equal _) (refl_equal _) mode_NE n 0 false.

(** C++ [<=] on doubles; false when one of them is not a number. *)
Definition dle (x y : dbl) : bool :=
  match b64_compare x y with Some Lt | Some Eq => true | _ => false end.

(** [t += dt], once per call of advance
    (applications/navierstokes/navierstokes.cpp:246,
    applications/decoupledibpm/decoupledibpm.cpp:111; ibpm and rigidkinematics
    call these): the time after [n] steps of a run that starts at [t0]. *)
Fixpoint clock (n : nat) (t0 dt : dbl) : dbl :=
  match n with
  | O => t0
  | S k => dadd (clock k t0 dt) dt
  end.

(** ProbeBase::monitor's condition (src/misc/probes.cpp:124); [Z.rem] is C's
    [%], [n_monitor] is assumed not to be zero. *)
Definition probe_due (n_monitor : Z) (t_start t_end : dbl) (n : Z) (t : dbl) : bool :=
  (Z.rem n n_monitor =? 0)%Z && dle t_start t && dle t t_end.

(** The steps of a run of [nt] steps from step [nstart] and time [t0] at which
    a probe records: advance increments the step and the time, then write calls
    monitorProbes (navierstokes.cpp:240-300, main.cpp:63-70). *)
Definition probe_steps (n_monitor : Z) (t_start t_end : dbl) (nstart : Z) (nt : nat) (t0 dt : dbl) : list Z :=
  map fst (filter (fun p => probe_due n_monitor t_start t_end (fst p) (snd p))
    (map (fun k => ((nstart + Z.of_nat k)%Z, clock k t0 dt)) (seq 1 nt))).

(** std::partial_sum (libstdc++: the first element is copied, every next one is
    the previous sum plus the element). *)
Fixpoint dsums (acc : dbl) (l : list dbl) : list dbl :=
  match l with
  | [] => []
  | d :: l' => dadd acc d :: dsums (dadd acc d) l'
  end.

Definition dpartial (l : list dbl) : list dbl :=
  match l with
  | [] => []
  | d :: l' => d :: dsums d l'
  end.

(** Positive zero, the value vector::resize gives new elements
    (cartesianmesh.cpp:187). *)
Definition dzero : dbl := B754_zero 53 1024 false.

(** CartesianMesh::createVertexMesh along one direction
    (src/mesh/cartesianmesh.cpp:186-196): the partial sums of the cell widths,
    preceded by zero, each shifted by the lower end of the domain. *)
Definition vertices (min : dbl) (widths : list dbl) : list dbl :=
  map (fun a => dadd a min) (dzero :: dpartial widths).

(** parseOneSubDomain with stretching ratio 1 (src/parser/parser.cpp:351). *)
Definition uniform_widths (n : nat) (bg ed : dbl) : list dbl :=
  repeat (ddiv (dsub ed bg) (dofZ (Z.of_nat n))) n.

(** C++ [*] on doubles, and the constant 0.5. *)
Definition dmul (x y : dbl) : dbl := b64_mult mode_NE x y.
Definition dhalf : dbl := B754_finite 53 1024 false 4503599627370496 (-53) (refl_equal _).

(** CartesianMesh::createPressureMesh along one direction
    (src/mesh/cartesianmesh.cpp:143-154): for each cell, the partial sum up to
    its upper end, plus the lower end of the domain, minus half the width. *)
Definition centres (min : dbl) (widths : list dbl) : list dbl :=
  map (fun p => dsub (dadd (fst p) min) (dmul dhalf (snd p))) (combine (dpartial widths) widths).
