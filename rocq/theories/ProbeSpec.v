(** Specification vocabulary for the probes and the time schemes. *)
From Coq Require Import String.
From Verif Require Import Prelude ZSum RSum TypesModel GridModel IndexModel BoundaryModel OperatorModel IndexSpec BoundarySpec MatModel.
From Verif Require Import ProbeModel.
Local Open Scope R_scope.

(** * Time schemes *)

(** One step from t to t + dt of y' = N(t) by implicit weight a and explicit
    weights cs (newest first): dt (a N(t+dt) + sum cs_i N(t - i dt)). *)
Fixpoint explicit_part (cs : list R) (N : R -> R) (t dt : R) : R :=
  match cs with [] => 0 | c :: l => c * N t + explicit_part l N (t - dt) dt end.
Definition scheme_step (s : scheme) (N : R -> R) (t dt : R) : R :=
  dt * (sc_implicit s * N (t + dt) + explicit_part (sc_explicit s) N t dt).
(** Integral of a + b s over [t, t + dt]. *)
Definition affine_integral (a b t dt : R) : R := a * dt + b * ((t + dt) ^ 2 - t ^ 2) / 2.

(** * Fields *)

(** [w p] is the value of field f (velocity component, or 3 for the pressure)
    at grid point p, for the vectors U and P. *)
Definition field_values (m : mesh) (D : dec) (f : Z) (U P : vec) (w : pt -> R) : Prop :=
  if (f =? 3)%Z then forall id p, nthZ (field_layout D 3) id = Some p -> w p = P id
  else forall id p, nthZ (packed_layout (m_dim m) D) id = Some (f, p) -> w p = U id.

(** * Interpolation *)

(** The location as the three numbers of the code; the third is 0 in 2D. *)
Definition pvec (m : mesh) (loc : Z -> R) : list R := map (fun d => if (d <? m_dim m)%Z then loc d else 0) (zrange 0 3).
Definition affine1 (h : R -> R) : Prop := forall a b s, h ((1 - s) * a + s * b) = (1 - s) * h a + s * h b.
(** Affine in each coordinate. *)
Definition multilinear (g : R -> R -> R -> R) : Prop :=
  (forall y z, affine1 (fun x => g x y z)) /\ (forall x z, affine1 (fun y => g x y z)) /\ (forall x y, affine1 (fun z => g x y z)).
(** g at grid point q of field f, and at the location loc; the third coordinate
    is 0 in 2D. *)
Definition at_point (m : mesh) (f : Z) (g : R -> R -> R -> R) (q : pt) : R :=
  g (crd m f 0 (pc q 0)) (crd m f 1 (pc q 1)) (if (m_dim m =? 3)%Z then crd m f 2 (pc q 2) else 0).
Definition at_loc (m : mesh) (g : R -> R -> R -> R) (loc : Z -> R) : R :=
  g (loc 0%Z) (loc 1%Z) (if (m_dim m =? 3)%Z then loc 2%Z else 0).
(** q is a corner of the cell of grid points that starts at c. *)
Definition corner (dim : Z) (c q : pt) : Prop :=
  forall d, (0 <= d < 3)%Z -> if (d <? dim)%Z then (pc q d = pc c d \/ pc q d = pc c d + 1)%Z else pc q d = 0%Z.
(** The location lies in the cell of grid points that starts at c. *)
Definition in_cell (m : mesh) (f : Z) (c : pt) (loc : Z -> R) : Prop :=
  forall d, (0 <= d < m_dim m)%Z -> (-1 <= pc c d < m_n m f d)%Z /\ crd m f d (pc c d) <= loc d <= crd m f d (pc c d + 1).
(** v is the value at loc of the multilinear function that agrees with w on the
    corners of the cell around loc. *)
Definition interpolant (m : mesh) (f : Z) (w : pt -> R) (loc : Z -> R) (v : R) : Prop :=
  exists c g, in_cell m f c loc /\ multilinear g /\ (forall q, corner (m_dim m) c q -> at_point m f g q = w q) /\ v = at_loc m g loc.
(** Values one layer out of the domain as a point probe sees them: the periodic
    image, and 0 beyond other boundaries. *)
Definition probe_ext (m : mesh) (f : Z) (w : pt -> R) (q : pt) : R :=
  if has_image (m_n m f) (periodic_dir m) q then w (image (m_n m f) q) else 0.

(** * Schedule *)
Definition call_time (cl : call) : R := let '(n, t, U, P) := cl in t.
Definition scheduled (c : pconf) (cl : call) : Prop :=
  let '(n, t, U, P) := cl in (exists k, n = k * pc_nmonitor c)%Z /\ pc_tstart c <= t <= pc_tend c.
(** The calls of the schedule, in order. *)
Inductive selects {A} (P : A -> Prop) : list A -> list A -> Prop :=
| sel_nil : selects P [] []
| sel_take a l s : P a -> selects P l s -> selects P (a :: l) (a :: s)
| sel_skip a l s : ~ P a -> selects P l s -> selects P (a :: l) s.

(** * Volume probes *)
Definition in_range (a x b : R) : bool := Rleb a x && Rleb x b.
(** The grid points inside the box enlarged by atol. *)
Definition in_box (m : mesh) (f : Z) (atol : R) (lo hi : Z -> R) (p : pt) : bool :=
  forallb (fun d => in_range (lo d - atol) (crd m f d (pc p d)) (hi d + atol)) (zrange 0 (m_dim m)).
Definition box_points (m : mesh) (D : dec) (f : Z) (atol : R) (lo hi : Z -> R) (r : Z) : list pt :=
  filter (in_box m f atol lo hi) (local_points D f r).
(** No gridline of field f lies strictly between the upper and the lower limit
    of a reversed box. *)
Definition box_usable (m : mesh) (f : Z) (atol : R) (lo hi : Z -> R) : Prop :=
  forall d i, (0 <= d < m_dim m)%Z -> (0 <= i < m_n m f d)%Z -> ~ (hi d + atol < crd m f d i < lo d - atol).

(** The records of a probe that averages over k samples: the j-th record covers
    samples j*k .. j*k + k - 1 and carries the time of the last of them. *)
Definition sample : Type := R * list R.
(** Entry e of sample i. *)
Definition sample_value (ss : list sample) (i e : Z) : R :=
  match nthZ ss i with Some s => match nthZ (snd s) e with Some x => x | None => 0 end | None => 0 end.
Definition averaged (k N : Z) (ss : list sample) (rs : list precord) : Prop :=
  lenZ rs = (lenZ ss / k)%Z /\
  forall j rec, nthZ rs j = Some rec ->
    pr_count rec = Some k /\
    (exists s, nthZ ss (j * k + k - 1) = Some s /\ pr_time rec = fst s) /\
    lenZ (pr_data rec) = N /\
    forall e, (0 <= e < N)%Z -> nthZ (pr_data rec) e = Some (zsum (fun i => sample_value ss (j * k + i) e) 0 k / IZR k).
