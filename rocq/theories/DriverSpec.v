(** Specification vocabulary for the files of the Navier-Stokes application. *)
From Coq Require Import String.
From Verif Require Import Prelude ZSum RSum TypesModel GridModel IndexModel IndexSpec BoundaryModel OperatorModel OperatorSpec MatModel
  NSModel NSSpec NameModel DriverModel.
Local Open Scope R_scope.

(** Equality of vectors on the first n entries. *)
Definition veq (n : Z) (x y : vec) : Prop := forall i, (0 <= i < n)%Z -> x i = y i.
(** Two states hold the same time, step, velocity, pressure and history. *)
Definition same_fields (m : mesh) (s s' : nsstate) : Prop :=
  s_t s = s_t s' /\ s_ite s = s_ite s' /\ veq (n_velocity m) (s_U s) (s_U s') /\ veq (n_pressure m) (s_p s) (s_p s') /\
  Forall2 (veq (n_velocity m)) (s_conv s) (s_conv s') /\ Forall2 (veq (n_velocity m)) (s_diff s) (s_diff s').

(** A file holds a state: every component and the pressure in natural order
    (entry natural(p) of the dataset is the value at point p), and the time. *)
Definition holds_velocity (m : mesh) (D : dec) (U : vec) (F : file) : Prop :=
  forall f, (0 <= f < m_dim m)%Z -> exists l, f_sets F (set_name f) = Some l /\ lenZ l = npoints (m_n m f) /\
    forall i p, nthZ (packed_layout (m_dim m) D) i = Some (f, p) -> nthZ l (natural (m_n m f) p) = Some (U i).
Definition holds_pressure (m : mesh) (D : dec) (y : vec) (F : file) : Prop :=
  exists l, f_sets F "/p" = Some l /\ lenZ l = npoints (m_n m 3) /\
    forall i p, nthZ (field_layout D 3) i = Some p -> nthZ l (natural (m_n m 3) p) = Some (y i).
Definition holds_solution (m : mesh) (D : dec) (s : nsstate) (F : file) : Prop :=
  holds_velocity m D (s_U s) F /\ holds_pressure m D (s_p s) F /\ f_time F = Some (s_t s).
(** ... and its explicit history, in the storage order of the vectors. *)
Definition holds_slots (m : mesh) (group : string) (h : list vec) (F : file) : Prop :=
  forall i v, nthZ h i = Some v -> exists l, f_sets F (history_name group i) = Some l /\ lenZ l = n_velocity m /\
    forall j, (0 <= j < n_velocity m)%Z -> nthZ l j = Some (v j).
Definition holds_history (m : mesh) (s : nsstate) (F : file) : Prop :=
  holds_slots m "/convection" (s_conv s) F /\ holds_slots m "/diffusion" (s_diff s) F.

(** A group of a grid file holds the coordinates of n x, n y, n z points:
    datasets "/group/x", "/group/y", "/group/z". *)
Definition axis_name (d : Z) : string := if (d =? 0)%Z then "x" else if (d =? 1)%Z then "y" else "z".
Definition holds_coords (group : string) (n : Z -> Z) (x : Z -> Z -> R) (G : file) : Prop :=
  forall d, (0 <= d < 3)%Z -> exists l, f_sets G ("/" ++ group ++ "/" ++ axis_name d)%string = Some l /\ lenZ l = n d /\
    forall i, (0 <= i < n d)%Z -> nthZ l i = Some (x d i).

(** The probes write no solution file. *)
Definition probes_elsewhere (out : string) (mon : nsstate -> list fsop) : Prop :=
  forall s o n, In o (mon s) -> op_path o <> solution_path out n.

(** * Crashes *)
(** A file is open (or being appended to without having been closed) after
    the operations [ops]. *)
Definition is_open (ops : list fsop) (p : string) : bool :=
  fold_left (fun b o => if String.eqb (op_path o) p then match o with Close _ => false | _ => true end else b) ops false.
(** The disk found after a crash when the operations [done] were executed and
    [rest] were not: a file that was open, or that the next operation works on,
    holds anything or is gone; every other file is as [done] left it. *)
Definition crash_at (done rest : list fsop) (d d' : disk) : Prop :=
  forall p, is_open done p = false -> match rest with o :: _ => op_path o <> p | [] => True end -> d' p = run_ops done d p.
(** The operations of a list of steps, in order. *)
Definition trace_ops (tr : list (Z * list fsop)) : list fsop := flat_map snd tr.

(** The dataset belongs to the explicit history. *)
Definition is_history (nm : string) : Prop := exists i, nm = history_name "/convection" i \/ nm = history_name "/diffusion" i.

(** * Runs *)
(** s1 is the state the program starts stepping from, [ops] its operators: the
    initial fields, or what was read from the restart file of the start step. *)
Definition started (conf : ioconf) (m : mesh) (D : dec) (P : nspar) (types : Z -> Z -> bctype) (values : Z -> Z -> R)
    (t0 : R) (U0 p0 : vec) (d : disk) (ops : nsops) (s1 : nsstate) : Prop :=
  exists s0 w, ns_init m D P types values t0 (c_nstart conf) U0 p0 = Ok (ops, s0) /\
    io_initial conf m D s0 (run_ops (init_ops m conf) d) = Ok (s1, w).

(** * Restart *)
(** Two boundary objects agree on every rank. *)
Definition bc_same (D : dec) (B B' : boundary) : Prop := forall r, (0 <= r < nranks D)%Z -> B r = B' r.
(** No convective boundary condition on a simulated component. *)
Definition no_convective (m : mesh) (types : Z -> Z -> bctype) : Prop :=
  forall f loc, (0 <= f < m_dim m)%Z -> (0 <= loc < m_dim m * 2)%Z -> types f loc <> CONVECTIVE.
(** What the parameters of the model must respect: they read their vector
    arguments only at valid indices and the boundary object only at valid
    ranks; the pressure solver does not depend on its initial guess. *)
Definition conv_respects (m : mesh) (D : dec) (conv : boundary -> vec -> res vec) : Prop :=
  forall B B' x x' y, bc_same D B B' -> veq (n_velocity m) x x' -> conv B x = Ok y ->
    exists y', conv B' x' = Ok y' /\ veq (n_velocity m) y y'.
Definition vsolve_respects (n : Z) (vs : vec -> vec -> vec) : Prop :=
  forall g g' b b', veq n g g' -> veq n b b' -> veq n (vs g b) (vs g' b').
Definition psolve_respects (n : Z) (ps : vec -> vec -> vec) : Prop :=
  forall g g' b b', veq n b b' -> veq n (ps g b) (ps g' b').
