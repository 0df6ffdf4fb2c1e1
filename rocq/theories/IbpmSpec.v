(** Specification vocabulary for the immersed-boundary solvers. *)
From Coq Require Import String.
From Verif Require Import Prelude ZSum RSum TypesModel GridModel GridSpec IndexModel IndexSpec BoundaryModel BoundarySpec
  OperatorModel OperatorSpec MatModel NSModel NSSpec BodyModel BodySpec DeltaModel DeltaSpec IbpmModel.
Local Open Scope R_scope.

(** k successive calls of [step]. *)
Fixpoint run_steps {A} (step : A -> res A) (k : nat) (s : A) : res A :=
  match k with 0%nat => Ok s | S k' => do s' <- run_steps step k' s; step s' end.

(** The state in which the momentum right-hand side of a step is assembled: the
    time and the step number have been advanced. *)
Definition begun (P : nspar) (s : nsstate) : nsstate :=
  mkNS (s_t s + p_dt P) (s_ite s + 1) (s_U s) (s_p s) (s_dP s) (s_conv s) (s_diff s) (s_bc s).

(** Component c of the velocity stored in U, sampled at the position X with the
    regularised delta function K on a mesh of cell sizes h: the sum over the
    points of the component of the kernel times the volume of a cell times the
    velocity. *)
Definition sampled (m : mesh) (D : dec) (K : kernel) (h : Z -> R) (c : Z) (X : list R) (U : vec) : R :=
  zsum (fun id => match nthZ (packed_layout (m_dim m) D) id with
                  | Some (f, p) => if (f =? c)%Z then kernel_at m K h c X p * cell_volume m h * U id else 0
                  | None => 0 end) 0 (n_velocity m).

(** The prescribed velocity of the bodies: [ub] holds [vel b i c] for component
    c of point i of body b. *)
Definition holds_velocity (m : mesh) (D : dec) (bodies : list (body * list (list R))) (ub : vec) (vel : Z -> Z -> Z -> R) : Prop :=
  forall row b i c, nthZ (body_layout (nranks D) (m_dim m) (map fst bodies)) row = Some (b, i, c) -> ub row = vel b i c.

(** As many bodies, as many points in each and as many coordinates in each. *)
Definition same_shape (l l' : list (list (list R))) : Prop := Forall2 (Forall2 (fun row row' : list R => lenZ row = lenZ row')) l l'.

(** A user's motion that depends on the time only: at time t the points are at
    [pos t], whatever they were before, and the velocity vector holds [vel t]. *)
Definition prescribed (m : mesh) (D : dec) (bodies : list (body * list (list R))) (mo : motion)
    (pos : R -> list (list (list R))) (vel : R -> Z -> Z -> Z -> R) : Prop :=
  forall t, same_shape (pos t) (map snd bodies) /\
    (forall l, same_shape l (map snd bodies) -> mo_move mo t l = Ok (pos t)) /\
    (forall v, exists v', mo_vel mo t v = Ok v' /\ holds_velocity m D bodies v' (vel t)).

(** The same bodies with their points at [cs]. *)
Definition bodies_at (bodies : list (body * list (list R))) (cs : list (list (list R))) : list (body * list (list R)) :=
  combine (map fst bodies) cs.

(** A text file with one line per point: its coordinates, separated by tabs. *)
Fixpoint line_of (pr : R -> string) (row : list R) : string :=
  match row with [] => "" | [x] => pr x | x :: t => (pr x ++ tab ++ line_of pr t)%string end.
Definition points_file (pr : R -> string) (coords : list (list R)) : text := mkText (map (line_of pr) coords) true.

(** The oscillating cylinder: every point displaced by -Am sin(2 pi f t) in x;
    all points have the same velocity. *)
Definition osc_pos (f Am : R) (coords0 : list (list R)) (t : R) : list (list (list R)) :=
  [map (fun row => [xc row 0 - Am * sin (2 * PI * f * t); xc row 1]) coords0].
Definition osc_velocity (f Um t : R) (b i c : Z) : R := if (c =? 0)%Z then - Um * cos (2 * PI * f * t) else 0.
