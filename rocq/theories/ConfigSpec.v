(** Specification vocabulary for the configuration. *)
From Coq Require Import Ascii String Permutation.
From Verif Require Import Prelude ZSum RSum TypesModel GridModel GridSpec IndexModel IndexSpec
  BoundaryModel BoundarySpec OperatorModel OperatorSpec SolutionModel ConfigModel.
Local Open Scope R_scope.
Local Open Scope string_scope.

(** * Settings *)

(** (k, v) is the last entry of the list with key k. *)
Definition last_def {A} (l : list (string * A)) (k : string) (v : A) : Prop :=
  exists l1 l2, l = (l1 ++ (k, v) :: l2)%list /\ ~ In k (map fst l2).

(** The top-level entries of a file. *)
Definition file_entries (fs : string -> loaded) (path : string) : list (string * yaml) :=
  match fs path with Doc (YMap l) => l | _ => [] end.

(** A file that can be read and is not a list. *)
Definition usable (fs : string -> loaded) (path : string) : Prop :=
  exists y, fs path = Doc y /\ forall x t, y <> YSeq (x :: t).

(** The documented meaning of the command-line options. *)
Definition given (cli : string -> option string) (o dflt : string) : string :=
  match cli o with Some s => s | None => dflt end.
Definition the_directory cli := given cli "-directory" "./".
Definition the_output cli := given cli "-output" (the_directory cli ++ "/output").
Definition the_logs cli := given cli "-logs" (the_output cli ++ "/logs").

(** The configuration files in the order of reading. *)
Definition optional (cli : string -> option string) (o : string) : list string :=
  match cli o with Some p => [p] | None => [] end.
Definition config_files (cli : string -> option string) : list string :=
  given cli "-config" (the_directory cli ++ "/config.yaml") ::
  (optional cli "-mesh" ++ optional cli "-flow" ++ optional cli "-parameters" ++
   optional cli "-bodies" ++ optional cli "-probes")%list.

(** All definitions of keys, earliest first. *)
Definition all_definitions (cli : string -> option string) (fs : string -> loaded) : list (string * yaml) :=
  ([("directory", YScalar (the_directory cli)); ("output", YScalar (the_output cli));
    ("logs", YScalar (the_logs cli))] ++ flat_map (file_entries fs) (config_files cli))%list.

(** * The documented words (doc/markdowns/inputs.md) *)
Definition doc_directions : list (string * Z) := [("x", 0%Z); ("y", 1%Z); ("z", 2%Z)].
Definition doc_fields : list (string * Z) := [("u", 0%Z); ("v", 1%Z); ("w", 2%Z); ("p", 3%Z)].
Definition doc_locations : list (string * Z) :=
  [("xMinus", 0%Z); ("xPlus", 1%Z); ("yMinus", 2%Z); ("yPlus", 3%Z); ("zMinus", 4%Z); ("zPlus", 5%Z)].
Definition doc_bctypes : list (string * bctype) :=
  [("DIRICHLET", DIRICHLET); ("NEUMANN", NEUMANN); ("CONVECTIVE", CONVECTIVE); ("PERIODIC", PERIODIC)].
Definition doc_probetypes : list (string * probetype) := [("VOLUME", VOLUME); ("POINT", POINT)].

(** * A configuration as the manual describes it *)

(** The scalar under key k reads as the number x. *)
Definition real_entry (rd : reader) (y : yaml) (k : string) (x : R) : Prop :=
  exists l s, y = YMap l /\ assoc l k = Some (YScalar s) /\ to_real rd s = Some x.
Definition int_entry (rd : reader) (y : yaml) (k : string) (x : Z) : Prop :=
  exists l s, y = YMap l /\ assoc l k = Some (YScalar s) /\ to_int rd s = Some x.
Definition word_entry (y : yaml) (k s : string) : Prop :=
  exists l, y = YMap l /\ assoc l k = Some (YScalar s).

(** y describes the sub-domain s; the axis ax. *)
Definition describes_sub (rd : reader) (y : yaml) (s : subdomain) : Prop :=
  int_entry rd y "cells" (sd_cells s) /\ real_entry rd y "end" (sd_end s) /\
  real_entry rd y "stretchRatio" (sd_ratio s).
Definition describes_axis (rd : reader) (y : yaml) (ax : axis) : Prop :=
  word_entry y "direction" (ax_dir ax) /\ real_entry rd y "start" (ax_start ax) /\
  exists l subs, y = YMap l /\ assoc l "subDomains" = Some (YSeq subs) /\
    Forall2 (describes_sub rd) subs (ax_subs ax).

(** One line "field: [type, value]" of a boundary, decoded. *)
Definition describes_bc (rd : reader) (loc : Z) (kv : string * yaml) (e : Z * Z * bctype * R) : Prop :=
  exists f fw tw ty vs v, kv = (fw, YSeq [YScalar tw; YScalar vs]) /\ In (fw, f) doc_fields /\ (f < 3)%Z /\
    In (tw, ty) doc_bctypes /\ to_real rd vs = Some v /\ e = (f, loc, ty, v).

(** One boundary of the list: its location and its lines. *)
Definition describes_boundary (rd : reader) (y : yaml) (es : list (Z * Z * bctype * R)) : Prop :=
  exists lw loc kvs, y = YMap (("location", YScalar lw) :: kvs) /\ In (lw, loc) doc_locations /\
    Forall2 (describes_bc rd loc) kvs es.

(** The whole configuration: the axes and the boundary conditions
    (field, location, type, value). *)
Definition describes (rd : reader) (y : yaml) (axs : list axis) (bcs : list (Z * Z * bctype * R)) : Prop :=
  exists st ays fl bys parts, y = YMap st /\
    assoc st "mesh" = Some (YSeq ays) /\ Forall2 (describes_axis rd) ays axs /\
    assoc st "flow" = Some (YMap fl) /\ assoc fl "boundaryConditions" = Some (YSeq bys) /\
    Forall2 (describes_boundary rd) bys parts /\ bcs = concat parts.

(** The grid of the mesh along direction d is that of the axis: its number of
    cells, its ends, and every vertex, each sub-domain being filled exactly by
    its cells with the widths in geometric progression ([pieces], C01). *)
Definition built_axis (m : mesh) (ax : axis) (d : Z) : Prop :=
  m_n m 3 d = sumZ (map sd_cells (ax_subs ax)) /\
  m_coord m 4 d 0 = Ok (ax_start ax) /\
  m_coord m 4 d (m_n m 3 d) = Ok (last_end (ax_start ax) (ax_subs ax)) /\
  exists pieces, pieces_ok (ax_start ax) (ax_subs ax) pieces /\
    forall k, (0 <= k <= m_n m 3 d)%Z -> m_coord m 4 d k = Ok (vtx (ax_start ax) (concat pieces) k).

(** A sensible list of boundary conditions in dim dimensions: exactly one entry
    for each component at each boundary, opposite boundaries periodic together,
    all components periodic together. *)
Definition bcs_ok (dim : Z) (bcs : list (Z * Z * bctype * R)) : Prop :=
  let key := fun e : Z * Z * bctype * R => let '(f, loc, _, _) := e in (f, loc) in
  NoDup (map key bcs) /\
  (forall f loc, In (f, loc) (map key bcs) <-> (0 <= f < dim)%Z /\ (0 <= loc < dim * 2)%Z) /\
  (forall f g d s ty ty' v v', (s = 0 \/ s = 1)%Z -> In (f, (2 * d)%Z, ty, v) bcs ->
     In (g, (2 * d + s)%Z, ty', v') bcs -> (ty = PERIODIC <-> ty' = PERIODIC)).

(** Direction d of the mesh has n cells. *)
Definition axis_cells (axs : list axis) (d n : Z) : Prop :=
  exists ax, In ax axs /\ In (ax_dir ax, d) doc_directions /\ n = sumZ (map sd_cells (ax_subs ax)).

(** * Initial conditions *)

(** Coordinates of point p of field f; 0 in the direction a 2D run lacks. *)
Definition xyz (m : mesh) (f d i : Z) : R := if (d <? m_dim m)%Z then crd m f d i else 0.

(** y describes the viscosity nu, the velocity expressions vel and the pressure
    expression pe. [compiled w e]: SymEngine reads the text w as the function e
    of x, y, z, t, nu. *)
Definition describes_ics (rd : reader) (compiled : string -> (R -> R -> R -> R -> R -> R) -> Prop) (y : yaml)
           (nu : R) (vel : list (R -> R -> R -> R -> R -> R)) (pe : R -> R -> R -> R -> R -> R) : Prop :=
  exists st fl ws, y = YMap st /\ assoc st "flow" = Some (YMap fl) /\ real_entry rd (YMap fl) "nu" nu /\
    assoc fl "initialVelocity" = Some (YSeq (map YScalar ws)) /\ Forall2 compiled ws vel /\
    ((exists pw, assoc fl "initialPressure" = Some (YScalar pw) /\ compiled pw pe) \/
     (assoc fl "initialPressure" = None /\ pe = fun _ _ _ _ _ => 0)).
