(** Specification vocabulary for the program: what the manual
    (doc/markdowns/inputs.md) says a configuration means. *)
From Coq Require Import Ascii String Permutation.
From Verif Require Import Prelude ZSum RSum TypesModel GridModel GridSpec BoundaryModel ProbeModel ConfigModel ConfigSpec ProgModel.
Local Open Scope R_scope.
Local Open Scope string_scope.

(** An optional entry: absent, and then x is the default. *)
Definition real_entry_or (rd : reader) (l : list (string * yaml)) (k : string) (dflt x : R) : Prop :=
  (assoc l k = None /\ x = dflt) \/ real_entry rd (YMap l) k x.
Definition int_entry_or (rd : reader) (l : list (string * yaml)) (k : string) (dflt x : Z) : Prop :=
  (assoc l k = None /\ x = dflt) \/ int_entry rd (YMap l) k x.
Definition word_entry_or (l : list (string * yaml)) (k dflt s : string) : Prop :=
  (assoc l k = None /\ s = dflt) \/ word_entry (YMap l) k s.

(** The documented schemes. Convection: the weights of the terms of the current
    and of the previous steps. Diffusion: the implicit weight and the weights of
    the explicit terms. *)
Definition convection_weights : list (string * list R) :=
  [("EULER_EXPLICIT", [1]); ("ADAMS_BASHFORTH_2", [3/2; -(1/2)])].
Definition diffusion_weights : list (string * (R * list R)) :=
  [("EULER_EXPLICIT", (0, [1])); ("EULER_IMPLICIT", (1, [])); ("CRANK_NICOLSON", (1/2, [1/2]))].

(** The section of a linear solver in "parameters": the hardware and the file of
    options (relative to the simulation directory dir, or absolute), which can
    be read. *)
Definition describes_solver (amgx : bool) (load : string -> bool) (ps : list (string * yaml)) (dir name : string) (s : linsolver) : Prop :=
  exists sec ty, assoc ps (name ++ "Solver") = Some (YMap sec) /\ word_entry_or sec "type" "CPU" ty /\
    exists path, ((assoc sec "config" = None /\ path = "None") \/
                  (exists c, word_entry (YMap sec) "config" ("/" ++ c) /\ path = "/" ++ c) \/
                  (exists c, word_entry (YMap sec) "config" c /\ c <> "None" /\ is_absolute c = false /\ path = dir ++ "/" ++ c)) /\
    ((ty = "CPU" /\ s = KSP name path /\ (path = "None" \/ load path = true)) \/ (ty = "GPU" /\ amgx = true /\ s = AmgX name path)).

(** The section of a probe; out is the output directory. *)
Definition describes_box (rd : reader) (bx : list (string * yaml)) (dirs : list (string * R * R)) : Prop :=
  Forall2 (fun kv e => let '(w, a, b) := e in exists sa sb, kv = (w, YSeq [YScalar sa; YScalar sb]) /\ In w ["x"; "y"; "z"] /\
             to_real rd sa = Some a /\ to_real rd sb = Some b) bx dirs.
Definition describes_probe (rd : reader) (dim : Z) (out : string) (y : yaml) (p : pdesc) : Prop :=
  exists l, y = YMap l /\ word_entry_or l "name" "unnamed" (pd_name p) /\
    (exists w, word_entry (YMap l) "field" w /\ In (w, pc_field (pd_conf p)) doc_fields) /\
    (exists w, word_entry (YMap l) "path" w /\ pd_path p = out ++ "/" ++ w) /\
    int_entry_or rd l "n_monitor" 1 (pc_nmonitor (pd_conf p)) /\
    real_entry_or rd l "t_start" 0 (pc_tstart (pd_conf p)) /\ real_entry_or rd l "t_end" 1000000000000 (pc_tend (pd_conf p)) /\
    ((pd_kind p = VOLUME /\ word_entry_or l "type" "VOLUME" "VOLUME" /\
      (exists w, word_entry_or l "viewer" "ascii" w /\ ((w = "ascii" /\ pd_hdf5 p = false) \/ (w = "hdf5" /\ pd_hdf5 p = true))) /\
      real_entry_or rd l "atol" (1 / 1000000) (pd_atol p) /\ int_entry_or rd l "n_sum" 0 (pd_nsum p) /\
      (exists bx dirs, assoc l "box" = Some (YMap bx) /\ describes_box rd bx dirs /\ NoDup (map (fun e => fst (fst e)) dirs) /\
         forall w a b d, In (w, a, b) dirs -> In (w, d) doc_directions -> pd_lo p d = a /\ pd_hi p d = b)) \/
     (pd_kind p = POINT /\ word_entry (YMap l) "type" "POINT" /\
      (exists ws, assoc l "loc" = Some (YSeq (map YScalar ws)) /\ Forall2 (fun w x => to_real rd w = Some x) ws (pd_loc p) /\
         lenZ (pd_loc p) = dim))).

(** Everything the manual puts under "parameters", with the directories and the
    probes. *)
Record runconf := mkRC {
  rc_dt : R; rc_t : R; rc_start : Z; rc_nt : Z; rc_nsave : Z; rc_nrestart : Z; rc_bn : Z;
  rc_conv : string; rc_diff : string; rc_velocity : linsolver; rc_poisson : linsolver; rc_out : string; rc_logs : string }.
Definition describes_run (rd : reader) (amgx : bool) (load : string -> bool) (y : yaml) (c : runconf) : Prop :=
  exists st ps dir, y = YMap st /\ assoc st "parameters" = Some (YMap ps) /\
    word_entry y "directory" dir /\ word_entry y "output" (rc_out c) /\ word_entry y "logs" (rc_logs c) /\
    real_entry rd (YMap ps) "dt" (rc_dt c) /\ real_entry_or rd ps "t" 0 (rc_t c) /\
    int_entry_or rd ps "startStep" 0 (rc_start c) /\ int_entry rd (YMap ps) "nt" (rc_nt c) /\
    int_entry rd (YMap ps) "nsave" (rc_nsave c) /\ int_entry rd (YMap ps) "nrestart" (rc_nrestart c) /\
    int_entry_or rd ps "BN" 1 (rc_bn c) /\
    word_entry (YMap ps) "convection" (rc_conv c) /\ word_entry (YMap ps) "diffusion" (rc_diff c) /\
    describes_solver amgx load ps dir "velocity" (rc_velocity c) /\ describes_solver amgx load ps dir "poisson" (rc_poisson c).

(** The section "probes" may be absent. *)
Definition describes_probes (rd : reader) (dim : Z) (out : string) (y : yaml) (probes : list pdesc) : Prop :=
  exists st, y = YMap st /\
    ((assoc st "probes" = None /\ probes = []) \/ exists l, assoc st "probes" = Some (YSeq l) /\ Forall2 (describes_probe rd dim out) l probes).

(** A configuration as the manual describes it: mesh and boundary conditions
    (C58), initial fields (C53), the section "parameters", the probes; the
    process grid is not finer than the mesh. *)
Record documented (rd : reader) (lambdify : string -> option (R -> R -> R -> R -> R -> R)) (amgx : bool) (load : string -> bool) (np : Z -> Z) (y : yaml)
    (axs : list axis) (bcs : list (Z * Z * bctype * R)) (nu : R) (vel : list (R -> R -> R -> R -> R -> R)) (pe : R -> R -> R -> R -> R -> R)
    (c : runconf) (wc : list R) (wi : R) (wd : list R) : Prop := mkDoc {
  doc_zero : lambdify "0" = Some (fun _ _ _ _ _ => 0);
  doc_mesh : describes rd y axs bcs;
  doc_dim : (lenZ axs = 2 \/ lenZ axs = 3)%Z;
  doc_axes : Permutation (map ax_dir axs) (firstn (length axs) ["x"; "y"; "z"]);
  doc_axis : Forall axis_ok axs;
  doc_bcs : bcs_ok (lenZ axs) bcs;
  doc_np : (forall d, (0 <= d < 3)%Z -> (1 <= np d)%Z) /\ (lenZ axs = 2%Z -> np 2%Z = 1%Z) /\
    (forall d n, axis_cells axs d n -> (np d <= n)%Z /\ ((forall v, ~ In (0%Z, (2 * d)%Z, PERIODIC, v) bcs) -> (np d < n)%Z));
  doc_ics : describes_ics rd (fun w e => lambdify w = Some e) y nu vel pe;
  doc_vel : (lenZ axs <= lenZ vel <= 4)%Z;
  doc_run : describes_run rd amgx load y c;
  doc_conv : In (rc_conv c, wc) convection_weights;
  doc_diff : In (rc_diff c, (wi, wd)) diffusion_weights;
  doc_probes : exists probes, describes_probes rd (lenZ axs) (rc_out c) y probes }.

(** Two configurations that differ at most in the steps to compute, the output
    frequencies, the probes and the directories of the simulation and of the
    logs. *)
Definition same_simulation (y y' : yaml) (c c' : runconf) : Prop :=
  (exists st st', y = YMap st /\ y' = YMap st' /\ assoc st "mesh" = assoc st' "mesh" /\ assoc st "flow" = assoc st' "flow") /\
  rc_dt c = rc_dt c' /\ rc_t c = rc_t c' /\ rc_bn c = rc_bn c' /\ rc_velocity c = rc_velocity c' /\ rc_poisson c = rc_poisson c' /\
  rc_out c = rc_out c'.
