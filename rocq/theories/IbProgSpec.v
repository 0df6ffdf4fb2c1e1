(** Specification vocabulary for the immersed-boundary programs: what the manual
    (doc/markdowns/inputs.md, sections "bodies" and "parameters") says their
    configuration means. *)
From Coq Require Import Ascii String Permutation.
From Verif Require Import Prelude ZSum RSum TypesModel GridModel GridSpec IndexModel IndexSpec BoundaryModel BoundarySpec
  OperatorModel OperatorSpec BodyModel BodySpec DeltaModel DeltaSpec ProbeModel NSModel NameModel DriverModel ConfigModel ConfigSpec ProgModel ProgSpec.
Local Open Scope R_scope.
Local Open Scope string_scope.

(** Section number i of "bodies": the body has this name and these points. The
    file is given by an absolute path, or relative to the simulation directory
    dir, and has a line with the number of points and a line per point. *)
Definition describes_body (lx : lexer) (files : string -> option text) (dim : Z) (dir : string) (i : Z) (y : yaml) (b : string * list (list R)) : Prop :=
  exists l w path tx, y = YMap l /\ word_entry_or l "name" ("body" ++ to_string i) (fst b) /\ word_entry_or l "type" "points" "points" /\
    word_entry (YMap l) "file" w /\ ((is_absolute w = true /\ path = w) \/ (is_absolute w = false /\ path = dir ++ "/" ++ w)) /\
    files path = Some tx /\ (1 <= lenZ (snd b))%Z /\ point_file lx dim (lenZ (snd b)) (snd b) tx.
Definition describes_bodies (lx : lexer) (files : string -> option text) (dim : Z) (y : yaml) (bodies : list (string * list (list R))) : Prop :=
  exists st dir l, y = YMap st /\ word_entry y "directory" dir /\ assoc st "bodies" = Some (YSeq l) /\ lenZ l = lenZ bodies /\
    forall i yb b, nthZ l i = Some yb -> nthZ bodies i = Some b -> describes_body lx files dim dir i yb b.

(** The kernel, and the documented kernels with the number of cells their
    support reaches to either side of the cell of a point. *)
Definition describes_kernel (y : yaml) (name : string) : Prop :=
  exists st ps, y = YMap st /\ assoc st "parameters" = Some (YMap ps) /\ word_entry_or ps "delta" "ROMA_ET_AL_1999" name.
Definition doc_kernels : list (string * Z) := [("ROMA_ET_AL_1999", 2%Z); ("PESKIN_2002", 3%Z)].

(** The solver of the forces. *)
Definition describes_forces_solver (amgx : bool) (load : string -> bool) (y : yaml) (s : linsolver) : Prop :=
  exists st ps dir, y = YMap st /\ assoc st "parameters" = Some (YMap ps) /\ word_entry y "directory" dir /\
    describes_solver amgx load ps dir "forces" s.

(** The section "kinematics" of the only body of the oscillating cylinder. *)
Definition describes_kinematics (rd : reader) (y : yaml) (f Dc KC : R) : Prop :=
  exists st l kin ce, y = YMap st /\ assoc st "bodies" = Some (YSeq [YMap l]) /\ assoc l "kinematics" = Some (YMap kin) /\
    real_entry_or rd kin "f" 0 f /\ real_entry_or rd kin "D" 1 Dc /\ real_entry_or rd kin "KC" 0 KC /\
    assoc kin "center" = Some (YSeq (map YScalar ce)) /\ lenZ ce = 2%Z.

(** The bodies, their points dealt to [size] processes as evenly as possible. *)
Definition dealt (size : Z) (bodies : list (string * list (list R))) : list (body * list (list R)) :=
  map (fun b => (default_body size (lenZ (snd b)), snd b)) bodies.

(** The point X is inside the domain; and where boundary number d of the
    x-velocity is periodic, the support of the kernel around the cell of X along
    direction d stays inside; [pieces] are the widths of the cells. (Boundary number d is not a boundary of direction
    d: the code looks the condition up with the direction, see DESIGN.md.) *)
Definition kernel_fits (axs : list axis) (bcs : list (Z * Z * bctype * R)) (reach : Z) (X : list R) : Prop :=
  forall ax d, In ax axs -> In (ax_dir ax, d) doc_directions ->
    ax_start ax < xc X d < last_end (ax_start ax) (ax_subs ax) /\
    forall v k pieces, In (0%Z, d, PERIODIC, v) bcs -> pieces_ok (ax_start ax) (ax_subs ax) pieces -> (0 <= k < sumZ (map sd_cells (ax_subs ax)))%Z ->
      vtx (ax_start ax) (concat pieces) k <= xc X d < vtx (ax_start ax) (concat pieces) (k + 1) ->
      (reach - 1 <= k)%Z /\ (k + reach < sumZ (map sd_cells (ax_subs ax)))%Z.

(** The simulation a documented configuration describes. *)
Definition simulates (rd : reader) (np : Z -> Z) (y : yaml) (axs : list axis) (bcs : list (Z * Z * bctype * R)) (nu : R)
    (vel : list (R -> R -> R -> R -> R -> R)) (pe : R -> R -> R -> R -> R -> R) (c : runconf)
    (m : mesh) (D : dec) (types : Z -> Z -> bctype) (values : Z -> Z -> R) (U0 p0 : Z -> R) (probes : list pdesc) : Prop :=
  mesh_setup m D /\ bc_fits m types /\ m_dim m = lenZ axs /\ (forall d, ds_np D d = np d) /\
  (forall ax d, In ax axs -> In (ax_dir ax, d) doc_directions -> built_axis m ax d) /\
  (forall f loc ty v, In (f, loc, ty, v) bcs -> types f loc = ty /\ values f loc = v) /\
  (forall id f i j k, nthZ (packed_layout (m_dim m) D) id = Some (f, (i, j, k)) ->
     exists e, nthZ vel f = Some e /\ U0 id = e (xyz m f 0 i) (xyz m f 1 j) (xyz m f 2 k) 0 nu) /\
  (forall id i j k, nthZ (field_layout D 3) id = Some (i, j, k) -> p0 id = pe (xyz m 3 0 i) (xyz m 3 1 j) (xyz m 3 2 k) 0 nu) /\
  describes_probes rd (lenZ axs) (rc_out c) y probes.

(** The run and the numerical parameters of the configuration: the output and
    log directories, the first step, the number of steps and the output
    frequencies; the time step, the viscosity, the order of the approximate
    inverse and the weights of the schemes. *)
Definition run_conf (c : runconf) : ioconf := mkConf (rc_out c) (rc_logs c) (rc_start c) (rc_nt c) (rc_nsave c) (rc_nrestart c).
Definition run_par (c : runconf) (nu : R) (wc : list R) (wi : R) (wd : list R) : nspar :=
  mkPar (rc_dt c) nu (rc_bn c) wc wi wd (match rc_poisson c with AmgX _ _ => true | KSP _ _ => false end).

(** The forces file of a run of n steps from time t: one line for each step, with
    the time after the step and a number for each body and direction. *)
Definition forces_lines (n : Z) (t dt : R) (nbodies dim : Z) (ls : list (list R)) : Prop :=
  lenZ ls = Z.max 0 n /\
  forall k l, nthZ ls k = Some l -> exists vals, l = (t + IZR (k + 1) * dt) :: vals /\ lenZ vals = (nbodies * dim)%Z.
