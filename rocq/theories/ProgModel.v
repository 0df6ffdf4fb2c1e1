(** Model of the program petibm-navierstokes from its settings to its end:
    NavierStokesSolver::init (applications/navierstokes/navierstokes.cpp:93-204)
    reading the YAML node, and main (applications/navierstokes/main.cpp:45-78). *)
From Coq Require Import Ascii String.
From Verif Require Import Prelude ZSum RSum TypesModel GridModel IndexModel BoundaryModel OperatorModel OperatorSpec MatModel BnModel
  SolutionModel ConvModel DeltaModel ProbeModel NSModel NameModel DriverModel ConfigModel.
Local Open Scope R_scope.

(** * Reading numbers and nodes *)

(** as<PetscInt>(fallback), as<PetscReal>(fallback): the fallback is used when
    the node is undefined and when the conversion fails (yaml-cpp, node/impl.h,
    as_if). *)
Definition as_int_or (rd : reader) (y : node) (fallback : Z) : Z :=
  match y with Some (YScalar s) => match to_int rd s with Some x => x | None => fallback end | _ => fallback end.
Definition as_real_or (rd : reader) (y : node) (fallback : R) : R :=
  match y with Some (YScalar s) => match to_real rd s with Some x => x | None => fallback end | _ => fallback end.

(** operator[] of a node that is not constant (yaml-cpp, node_data.cpp): as
    [yget], but an undefined node becomes an empty map. The empty entries this
    creates are undefined nodes and are read as absent keys. *)
Definition yget_mut (y : node) (k : string) : res node :=
  match y with None => Ok None | Some _ => yget y k end.

(** src/timeintegration/timeintegration.cpp:40-83 on the YAML node. *)
Definition createTimeIntegration_node (name : string) (y : node) : res scheme :=
  do ps <- yget y "parameters"%string;
  match ps with
  | None => createTimeIntegration name None
  | Some p =>
      do w <- yget (Some p) name;
      match w with
      | None => createTimeIntegration name (Some (fun _ => None))
      | Some x => do s <- as_string (Some x); createTimeIntegration name (Some (fun k => if String.eqb k name then Some s else None))
      end
  end.

(** * Probes *)

(** What a probe object stores after its constructor: probes.cpp:57-79 (all
    probes), 164-206 (volume: viewer, tolerance, n_sum, box), 607-623 (point:
    location). [pd_hdf5]: the viewer writes HDF5. *)
Record pdesc := mkPD {
  pd_kind : probetype; pd_name : string; pd_path : string; pd_conf : pconf;
  pd_hdf5 : bool; pd_atol : R; pd_nsum : Z; pd_lo : Z -> R; pd_hi : Z -> R; pd_loc : list R }.

Section Probe.
Variable rd : reader.
Local Open Scope string_scope.

(** probes.cpp:57-79 *)
Definition probe_base (y : node) : res (string * string * pconf) :=
  do nm <- yget y "name";
  do fl <- yget y "field"; do fw <- as_string fl;
  do pa <- yget y "path"; do path <- as_string pa;
  do nmo <- yget y "n_monitor"; do ts <- yget y "t_start"; do te <- yget y "t_end";
  Ok (as_string_or nm "unnamed", path,
      mkPC (decode_field fw) (as_int_or rd nmo 1) (as_real_or rd ts 0) (as_real_or rd te (1000000000000))).

(** probes.cpp:191-196. The range-for over a node that is not a map or a
    sequence does nothing; over a sequence [item.first] is invalid. *)
Definition read_box (y : node) : res ((Z -> R) * (Z -> R)) :=
  match y with
  | Some (YMap l) =>
      foldM (fun (b : (Z -> R) * (Z -> R)) (kv : string * yaml) =>
               let d := decode_dir (fst kv) in
               do e0 <- yidx (Some (snd kv)) 0; do a <- as_real rd e0;
               do e1 <- yidx (Some (snd kv)) 1; do c <- as_real rd e1;
               Ok ((fun i => if (i =? d)%Z then a else fst b i), (fun i => if (i =? d)%Z then c else snd b i)))
            l ((fun _ => 0), (fun _ => 0))
  | Some (YSeq (_ :: _)) => Err EXC
  | _ => Ok ((fun _ => 0), (fun _ => 0))
  end.

(** probes.cpp:23-50 with the constructors. The viewer type of a volume probe
    is not set when the word is neither "ascii" nor "hdf5" (lines 174-178), and
    PetscViewerSetType then reads it. The objects built from the mesh (index
    sets, interpolation) are modelled in ProbeModel.v. *)
Definition createProbe (dim : Z) (y : node) : res pdesc :=
  do k <- createProbe_kind y;
  match k with
  | VOLUME =>
      do b <- probe_base y;
      do vw <- yget y "viewer"; let v := as_string_or vw "ascii" in
      do at' <- yget y "atol"; do ns <- yget y "n_sum";
      do bx <- yget y "box"; do lh <- read_box bx;
      let p := mkPD VOLUME (fst (fst b)) (snd (fst b)) (snd b) (String.eqb v "hdf5") (as_real_or rd at' (1 / 1000000)) (as_int_or rd ns 0)
                    (fst lh) (snd lh) [] in
      if String.eqb v "ascii" || String.eqb v "hdf5" then Ok p else UB
  | _ =>
      do b <- probe_base y;
      do lc <- yget y "loc";
      do loc <- mapM (fun d => do e <- yidx lc d; as_real rd e) (zrange 0 dim);
      Ok (mkPD POINT (fst (fst b)) (snd (fst b)) (snd b) false 0 0 (fun _ => 0) (fun _ => 0) loc)
  end.

(** navierstokes.cpp:167-178: the path of each probe is prefixed with the output
    directory, then the probe is created. [i] indexes the node "probes". *)
Definition create_probe_i (dim : Z) (out : string) (ps : node) (i : Z) : res pdesc :=
  do e <- match ps with None => Ok None | _ => yidx ps i end;
  do pa <- yget_mut e "path"; do path <- as_string pa;
  match e with
  | Some (YMap l) => createProbe dim (Some (YMap (set_key "path" (YScalar (out ++ "/" ++ path)) l)))
  | _ => Err EXC
  end.
Definition create_probes (dim : Z) (out : string) (ps : node) : res (list pdesc) :=
  mapM (create_probe_i dim out ps) (zrange 0 (match ps with Some p => ysize p | None => 0%Z end)).
End Probe.

(** * The solver object after init *)
Record nsbuilt := mkBuilt {
  nb_conf : ioconf; nb_mesh : mesh; nb_dec : dec; nb_types : Z -> Z -> bctype; nb_values : Z -> Z -> R;
  nb_par : nspar; nb_t : R; nb_U : vec; nb_p : vec; nb_vsolver : linsolver; nb_psolver : linsolver; nb_probes : list pdesc }.

(** An object whose constructor stopped half-way is used by the next lines. *)
Definition used {A} (x : res (option A)) : res A := do o <- x; match o with Some a => Ok a | None => UB end.

(** setNullSpace (navierstokes.cpp:395-429): the pressure is pinned with the
    AmgX solver, the null space is attached with a KSP. *)
Definition pins (s : linsolver) : bool := match s with KSP _ _ => false | AmgX _ _ => true end.

Section Program.
Variable rd : reader.
Variable lambdify : string -> option (R -> R -> R -> R -> R -> R).
Variable have_amgx : bool.
Variable load_options : string -> bool.
Variable np : Z -> Z.
Local Open Scope string_scope.

(** navierstokes.cpp:93-204, in the order of the source, up to the creation of
    operators and vectors (in [ns_init]). Not modelled: the registration of
    logging stages; the files created before an error. *)
Definition ns_setup (y : node) : res nsbuilt :=
  do ps <- yget_mut y "parameters";
  do dtn <- yget_mut ps "dt"; do dt <- as_real rd dtn;
  do ssn <- yget_mut ps "startStep"; let nstart := as_int_or rd ssn 0 in
  do tn <- yget_mut ps "t"; let t := as_real_or rd tn 0 in
  do ntn <- yget_mut ps "nt"; do nt <- as_int rd ntn;
  do nsn <- yget_mut ps "nsave"; do nsave <- as_int rd nsn;
  do nrn <- yget_mut ps "nrestart"; do nrestart <- as_int rd nrn;
  do fl <- yget_mut y "flow"; do nun <- yget_mut fl "nu"; do nu <- as_real rd nun;
  do MD <- used (createMesh rd np y); let '(m, D) := MD in
  do on <- yget_mut y "output"; do out <- as_string on;
  do _ <- mapM (fun r => used (createBoundary_factory rd m D r y)) (zrange 0 (nranks D));
  do tv <- parseBCs rd y;
  do s <- setInitialConditions rd lambdify y m D;
  do cs <- createTimeIntegration_node "convection" y;
  do ds <- createTimeIntegration_node "diffusion" y;
  do v <- used (createLinSolver have_amgx load_options "velocity" y);
  do p <- used (createLinSolver have_amgx load_options "poisson" y);
  do bnn <- yget_mut ps "BN"; let bn := as_int_or rd bnn 1 in
  do pn <- yget_mut y "probes"; do probes <- create_probes rd (m_dim m) out pn;
  do ln <- yget_mut y "logs"; do logs <- as_string ln;
  Ok (mkBuilt (mkConf out logs nstart nt nsave nrestart) m D (fst tv) (snd tv)
        (mkPar dt nu bn (sc_explicit cs) (sc_implicit ds) (sc_explicit ds) (pins p)) t (UGlobal s) (pGlobal s) v p probes).

(** main.cpp:57-70. Parameters: what each linear solver returns, for the
    matrix it is given (fixed during a run), an initial guess and a right-hand
    side; the files the probes write in a step. ("logs" is read when the first
    log file is written, navierstokes.cpp:289; here at the end of init.) *)
Variable solver_result : linsolver -> vec -> vec -> vec.
Variable probe_ops : list pdesc -> nsstate -> list fsop.

Definition ns_program (fuel : nat) (y : node) (d : disk) : res (option (nsstate * disk * list (Z * list fsop))) :=
  do b <- ns_setup y;
  ns_main fuel (nb_conf b) (nb_mesh b) (nb_dec b) (nb_par b) (nb_types b) (nb_values b) (nb_t b) (nb_U b) (nb_p b)
    (probe_ops (nb_probes b)) (convection (nb_mesh b) (nb_dec b)) (solver_result (nb_vsolver b)) (solver_result (nb_psolver b)) d.

(** main.cpp:45-78 *)
Definition ns_app (cli : string -> option string) (fs : string -> loaded) (mkdir : string -> bool) (fuel : nat) (d : disk)
  : res (option (nsstate * disk * list (Z * list fsop))) :=
  do st <- snd (getSettings cli fs mkdir); ns_program fuel (Some (YMap st)) d.
End Program.
