(** Specification vocabulary for the one-dimensional grid geometry.
    Only lists of cell widths and the record types of the YAML input. *)
From Coq Require Import String.
From Verif Require Import Prelude RSum TypesModel GridModel.
Local Open Scope R_scope.

(** Total length of a list of cell widths. *)
Definition total (w : list R) : R := sumR (fun x => x) w.

(** Position of the k-th vertex of an axis that starts at [mn] and has cell
    widths [w]: the start plus the widths of the first k cells. *)
Definition vtx (mn : R) (w : list R) (k : Z) : R := mn + total (firstn (Z.to_nat k) w).

(** Centre of the k-th cell. *)
Definition ctr (mn : R) (w : list R) (k : Z) : R := (vtx mn w k + vtx mn w (k + 1)) / 2.

(** All widths positive. *)
Definition positive (w : list R) : Prop := Forall (fun x => 0 < x) w.

(** Consecutive widths have ratio r. *)
Definition geometric (r : R) (w : list R) : Prop :=
  forall i x y, nthZ w i = Some x -> nthZ w (i + 1) = Some y -> y = x * r.

(** A sub-domain list a user may write for an axis starting at [bg]:
    consecutive increasing ends, at least one cell each, positive ratios. *)
Fixpoint subs_ok (bg : R) (subs : list subdomain) : Prop :=
  match subs with
  | [] => True
  | s :: t => bg < sd_end s /\ (1 <= sd_cells s)%Z /\ 0 < sd_ratio s /\ subs_ok (sd_end s) t
  end.

(** The end of the last sub-domain ([bg] when there is none). *)
Fixpoint last_end (bg : R) (subs : list subdomain) : R :=
  match subs with [] => bg | s :: t => last_end (sd_end s) t end.

Fixpoint sumZ (l : list Z) : Z := match l with [] => 0%Z | x :: t => (x + sumZ t)%Z end.

(** The ratio a sub-domain is documented to use: uniform when the given ratio
    is 1 up to 1e-12. *)
Definition effective_ratio (s : subdomain) : R :=
  if Rle_dec (Rabs (sd_ratio s - 1)) (/ 10 ^ 12) then 1 else sd_ratio s.

(** One list of widths per sub-domain, filling it exactly. *)
Fixpoint pieces_ok (bg : R) (subs : list subdomain) (pieces : list (list R)) : Prop :=
  match subs, pieces with
  | [], [] => True
  | s :: t, p :: ps =>
      lenZ p = sd_cells s /\ positive p /\ total p = sd_end s - bg /\
      geometric (effective_ratio s) p /\ pieces_ok (sd_end s) t ps
  | _, _ => False
  end.

(** Input of the coordinate construction: 2 or 3 dimensions, at least one cell
    per axis, positive widths, and max = min + total width. *)
Definition grid_ok (dim : Z) (mn mx : Z -> R) (w : Z -> list R) : Prop :=
  (dim = 2 \/ dim = 3)%Z /\
  forall d, (0 <= d < dim)%Z -> w d <> [] /\ positive (w d) /\ mx d = mn d + total (w d).

(** A well-formed axis entry. *)
Definition axis_ok (ax : axis) : Prop := ax_subs ax <> [] /\ subs_ok (ax_start ax) (ax_subs ax).

(** The arrays of the mesh object have three entries. *)
Definition grid3 (g : gridarr) : Prop :=
  lenZ (g_min g) = 3%Z /\ lenZ (g_max g) = 3%Z /\ lenZ (g_n g) = 3%Z /\ lenZ (g_dL g) = 3%Z.

(** What an axis entry contributes. *)
Definition holds_axis (g : gridarr) (ax : axis) : Prop :=
  exists dL,
    parseSubDomains (ax_subs ax) (ax_start ax)
      = Ok (sumZ (map sd_cells (ax_subs ax)), last_end (ax_start ax) (ax_subs ax), dL) /\
    let d := decode_dir (ax_dir ax) in
    nthZ (g_min g) d = Some (ax_start ax) /\
    nthZ (g_max g) d = Some (last_end (ax_start ax) (ax_subs ax)) /\
    nthZ (g_n g) d = Some (sumZ (map sd_cells (ax_subs ax))) /\
    nthZ (g_dL g) d = Some dL /\
    lenZ dL = sumZ (map sd_cells (ax_subs ax)) /\ positive dL /\
    total dL = last_end (ax_start ax) (ax_subs ax) - ax_start ax.

Definition same_at (g g' : gridarr) (d : Z) : Prop :=
  nthZ (g_min g) d = nthZ (g_min g') d /\ nthZ (g_max g) d = nthZ (g_max g') d /\
  nthZ (g_n g) d = nthZ (g_n g') d /\ nthZ (g_dL g) d = nthZ (g_dL g') d.

(** Views of the parsed arrays as functions of the direction. *)
Definition gmin (g : gridarr) (d : Z) : R := match nthZ (g_min g) d with Some x => x | None => 0 end.
Definition gmax (g : gridarr) (d : Z) : R := match nthZ (g_max g) d with Some x => x | None => 0 end.
Definition gdL (g : gridarr) (d : Z) : list R := match nthZ (g_dL g) d with Some x => x | None => [] end.

