(** Model of the configuration: YAML nodes, the settings (src/parser/parser.cpp),
    the factories that build the objects of a simulation from them, and the
    initial conditions (src/solution/solutionsimple.cpp:122-226).
    yaml-cpp, SymEngine and the file system appear as parameters. *)
From Coq Require Import Ascii String.
From Verif Require Import Prelude ZSum RSum TypesModel GridModel GridSpec IndexModel BoundaryModel SolutionModel.
Local Open Scope R_scope.

Definition PETSC_ERR_USER_INPUT : Z := 83%Z.

(** * YAML nodes (yaml-cpp) *)

(** The contents of a node. Keys of maps are scalars. *)
Inductive yaml : Type :=
| YNull
| YScalar (s : string)
| YSeq (l : list yaml)
| YMap (l : list (string * yaml)).

(** What operator[] of a constant node returns: [None] is the undefined node. *)
Definition node := option yaml.

(** operator[] const with a string key (yaml-cpp, node/impl.h, node_data.cpp):
    a scalar or an undefined node throws; a missing key gives the undefined
    node. *)
Definition yget (y : node) (k : string) : res node :=
  match y with
  | None => Err EXC
  | Some (YScalar _) => Err EXC
  | Some (YMap l) => Ok (assoc l k)
  | Some _ => Ok None
  end.

(** operator[] with an index. Simplification: a map with an integer key is read
    as having no such key. *)
Definition yidx (y : node) (i : Z) : res node :=
  match y with
  | None => Err EXC
  | Some (YScalar _) => Err EXC
  | Some (YSeq l) => Ok (nthZ l i)
  | Some _ => Ok None
  end.

(** size() *)
Definition ysize (y : yaml) : Z :=
  match y with YSeq l => lenZ l | YMap l => lenZ l | _ => 0%Z end.

(** Range-for over a node whose elements are used as nodes: the elements of a
    sequence; the entries of a map are pairs and any use of one as a node
    throws. *)
Definition yelems (y : yaml) : res (list yaml) :=
  match y with YSeq l => Ok l | YMap [] => Ok [] | YMap (_ :: _) => Err EXC | _ => Ok [] end.

(** as<std::string>() *)
Definition as_string (y : node) : res string :=
  match y with Some (YScalar s) => Ok s | _ => Err EXC end.

(** as<std::string>(fallback) *)
Definition as_string_or (y : node) (fallback : string) : string :=
  match y with Some (YScalar s) => s | _ => fallback end.

(** Conversions of scalars to numbers: parameters. *)
Record reader := mkReader { to_real : string -> option R; to_int : string -> option Z }.

(** as<PetscReal>(), as<PetscInt>() *)
Definition as_real (rd : reader) (y : node) : res R :=
  do s <- as_string y; match to_real rd s with Some x => Ok x | None => Err EXC end.
Definition as_int (rd : reader) (y : node) : res Z :=
  do s <- as_string y; match to_int rd s with Some x => Ok x | None => Err EXC end.

(** * Settings *)

(** The node that collects all settings. *)
Definition settings := list (string * yaml).

(** node[k] = v on a non-constant map node. *)
Fixpoint set_key (k : string) (v : yaml) (l : settings) : settings :=
  match l with
  | [] => [(k, v)]
  | (k', v') :: t => if String.eqb k' k then (k', v) :: t else (k', v') :: set_key k v t
  end.

(** YAML::LoadFile: no such file (BadFile), unreadable contents (another
    exception), or a document. *)
Inductive loaded : Type :=
| NoFile
| Malformed
| Doc (y : yaml).

Section Settings.
(** The options of the command line, the files, and whether mkdir succeeds
    (or fails because the directory exists). *)
Variable cli : string -> option string.
Variable fs : string -> loaded.
Variable mkdir : string -> bool.

Local Open Scope string_scope.

(** src/parser/parser.cpp:152-172 *)
Definition readYAMLFile (path : string) (st : settings) : res settings :=
  match fs path with
  | NoFile => Err PETSC_ERR_FILE_OPEN
  | Malformed => Err EXC
  | Doc (YMap l) => Ok (fold_left (fun s kv => set_key (fst kv) (snd kv) s) l st)
  | Doc (YSeq (_ :: _)) => Err EXC
  | Doc _ => Ok st
  end.

(** if (flag) ... else default *)
Definition option_or (o : string) (dflt : string) : string :=
  match cli o with Some s => s | None => dflt end.

(** src/parser/parser.cpp:25-40 *)
Definition createDirectory (d : string) : res unit := if mkdir d then Ok tt else Err 1%Z.

Definition scalar_at (st : settings) (k : string) : res string := as_string (assoc st k).

(** src/parser/parser.cpp:174-237. The first component is the list of
    directories passed to mkdir, in order. Paths longer than PETSC_MAX_PATH_LEN
    are not modelled. *)
Definition getSettings : list string * res settings :=
  let st1 := set_key "directory" (YScalar (option_or "-directory" "./")) [] in
  match scalar_at st1 "directory" with
  | Ok dir =>
      let st2 := set_key "output" (YScalar (option_or "-output" (dir ++ "/output"))) st1 in
      match scalar_at st2 "output" with
      | Ok out =>
          match createDirectory out with
          | Ok _ =>
              let st3 := set_key "logs" (YScalar (option_or "-logs" (out ++ "/logs"))) st2 in
              match scalar_at st3 "logs" with
              | Ok logs =>
                  match createDirectory logs with
                  | Ok _ =>
                      ([out; logs],
                       do dir' <- scalar_at st3 "directory";
                       do st4 <- readYAMLFile (option_or "-config" (dir' ++ "/config.yaml")) st3;
                       foldM (fun st o => match cli o with
                                          | Some path => readYAMLFile path st
                                          | None => Ok st
                                          end)
                             ["-mesh"; "-flow"; "-parameters"; "-bodies"; "-probes"] st4)
                  | Err c => ([out; logs], Err c)
                  | UB => ([out; logs], UB)
                  end
              | Err c => ([out], Err c)
              | UB => ([out], UB)
              end
          | Err c => ([out], Err c)
          | UB => ([out], UB)
          end
      | Err c => ([], Err c)
      | UB => ([], UB)
      end
  | Err c => ([], Err c)
  | UB => ([], UB)
  end.
End Settings.

(** * Words *)

(** std::map<std::string, T>::operator[]: the value and the map afterwards; an
    absent key is inserted with the value-initialised enumerator. (The order of
    the entries is immaterial.) *)
Definition map_index {T} (dflt : T) (tab : list (string * T)) (s : string) : T * list (string * T) :=
  match assoc tab s with Some v => (v, tab) | None => (dflt, (tab ++ [(s, dflt)])%list) end.

(** The dictionary after a history of look-ups. *)
Definition map_after {T} (dflt : T) (tab : list (string * T)) (hist : list string) : list (string * T) :=
  fold_left (fun t s => snd (map_index dflt t s)) hist tab.

(** * Mesh and boundary conditions *)

Section Parse.
Variable rd : reader.
Local Open Scope string_scope.

(** src/parser/parser.cpp:333-343: the entries of one sub-domain. *)
Definition read_sub (y : yaml) : res subdomain :=
  do c <- yget (Some y) "cells"; do n <- as_int rd c;
  do e <- yget (Some y) "end"; do ed <- as_real rd e;
  do s <- yget (Some y) "stretchRatio"; do r <- as_real rd s;
  Ok (mkSub ed n r).

(** src/parser/parser.cpp:284-292: the entries of one axis. Iterating over the
    undefined node (no sub-domains) does nothing. *)
Definition read_axis (y : yaml) : res axis :=
  do d <- yget (Some y) "direction"; do dir <- as_string d;
  do s <- yget (Some y) "start"; do start <- as_real rd s;
  do sub <- yget (Some y) "subDomains";
  do l <- match sub with Some z => yelems z | None => Ok [] end;
  do subs <- mapM read_sub l;
  Ok (mkAxis dir start subs).

(** src/parser/parser.cpp:239-272: parseMesh on a node. Simplification: all
    scalars are read before the first width is computed. *)
Definition parseMeshNode (y : node) : res (Z * gridarr) :=
  match y with
  | None => Err EXC
  | Some z =>
      do l <- yelems z;
      do axs <- mapM read_axis l;
      parseMesh axs grid0
  end.

Definition bctables : Type := ((Z -> Z -> bctype) * (Z -> Z -> R))%type.

(** src/parser/parser.cpp:379-388: one entry [field: [type, value]] of the
    boundary [loc]. The tables have 3 x 6 entries. *)
Definition parse_bc_entry (loc : Z) (t : bctables) (kv : string * yaml) : res bctables :=
  if String.eqb (fst kv) "location" then Ok t
  else
    let f := decode_field (fst kv) in
    do a <- yidx (Some (snd kv)) 0%Z; do ty <- as_string a;
    if ((0 <=? f) && (f <? 3) && (0 <=? loc) && (loc <? 6))%Z then
      do b <- yidx (Some (snd kv)) 1%Z; do v <- as_real rd b;
      Ok (upd2 (fst t) f loc (decode_bctype ty), upd2 (snd t) f loc v)
    else UB.

(** src/parser/parser.cpp:375-389: one boundary. *)
Definition parse_bc (t : bctables) (y : yaml) : res bctables :=
  do l <- yget (Some y) "location"; do lw <- as_string l;
  match y with
  | YMap kvs => foldM (parse_bc_entry (decode_bcloc lw)) kvs t
  | _ => Ok t
  end.

(** src/parser/parser.cpp:357-393 *)
Definition parseBCs (y : node) : res bctables :=
  do flow <- yget y "flow";
  match flow with
  | None => Err PETSC_ERR_ARG_OUTOFRANGE
  | Some fl =>
      do bcs <- yget (Some fl) "boundaryConditions";
      match bcs with
      | None => Err PETSC_ERR_ARG_OUTOFRANGE
      | Some b =>
          do l <- yelems b;
          foldM parse_bc l ((fun _ _ => NOBC), (fun _ _ => 0))
      end
  end.

(** * Objects *)

(** src/mesh/cartesianmesh.cpp:69-133 (init). The process grid [np] is chosen
    by PETSc (PETSC_DECIDE). The same on every rank. ([gmin], [gmax], [gdL] read
    the arrays min, max, dLTrue[3]. With a number of axes other than 2 or 3 no
    DMDA is created and DMSetUp gets a null object, lines 509-531.) *)
Definition mesh_init (np : Z -> Z) (y : node) : res (mesh * dec) :=
  do mn <- yget y "mesh";
  do p <- parseMeshNode mn;
  let '(dim, g) := p in
  do t <- parseBCs y;
  do per <- checkPeriodicBC (fst t);
  do m <- createMeshArrays dim (gmin g) (gmax g) per (gdL g);
  if ((dim =? 2) || (dim =? 3))%Z then do D <- createDMDAs dim np (m_n m); Ok (m, D) else UB.

(** src/boundary/boundarysimple.cpp:25-64 (init) on rank r. *)
Definition boundary_init (m : mesh) (D : dec) (r : Z) (y : node) : res (list (list sbd)) :=
  do t <- parseBCs y;
  createBoundary m D r (fst t) (snd t).
End Parse.

(** What a factory returns after [x], the initialisation run by a constructor
    that discards its error code: code 0 with the object, or code 0 with an
    object whose initialisation stopped half-way ([None]); exceptions leave the
    constructor. (src/mesh/mesh.cpp:86-94 with cartesianmesh.cpp:30-33,
    src/boundary/boundary.cpp:41-49 with boundarysimple.cpp:19-22,
    src/body/bodypack.cpp:15-19 and 326-334, src/solution/solution.cpp:65-72
    with solutionsimple.cpp:24-27, singlebodypoints.cpp:19-25,
    linsolverksp.cpp:16-20, singleboundary*.cpp constructors.) *)
Definition ctor {A} (x : res A) : res (option A) :=
  match x with
  | Ok a => Ok (Some a)
  | Err c => if (c =? EXC)%Z then Err EXC else Ok None
  | UB => UB
  end.

(** src/mesh/mesh.cpp:86-94 *)
Definition createMesh (rd : reader) (np : Z -> Z) (y : node) : res (option (mesh * dec)) :=
  ctor (mesh_init rd np y).

(** src/boundary/boundary.cpp:41-49 *)
Definition createBoundary_factory (rd : reader) (m : mesh) (D : dec) (r : Z) (y : node)
  : res (option (list (list sbd))) :=
  ctor (boundary_init rd m D r y).

Section Bodies.
Local Open Scope string_scope.
(** [open_body dim path] is the initialisation of SingleBodyPoints
    (src/body/singlebodypoints.cpp:27-60, modelled in BodyModel.v); [itos] is
    std::to_string. *)
Variable body : Type.
Variable open_body : Z -> string -> res body.
Variable itos : Z -> string.

(** src/body/singlebody.cpp:83-99 *)
Definition createSingleBody (dim : Z) (type path : string) : res (option body) :=
  if String.eqb type "points" then ctor (open_body dim path) else Err PETSC_ERR_ARG_WRONG.

(** filePath[0] != '/' (for an empty string filePath[0] is a null character). *)
Definition is_absolute (path : string) : bool :=
  match path with String c _ => Ascii.eqb c "/"%char | EmptyString => false end.

(** src/body/bodypack.cpp:88-118: body number i of the list. The point count of
    a half-initialised body ([None]) is uninitialised memory: reading it is
    undefined behaviour (lines 112-119). *)
Definition pack_body (dim : Z) (y : node) (i : Z) : res (string * body) :=
  do bs <- yget y "bodies";
  do b <- yidx bs i;
  do nm <- yget b "name";
  do ty <- yget b "type";
  do fi <- yget b "file";
  match fi with
  | None => Err PETSC_ERR_ARG_WRONG
  | Some _ =>
      do path <- as_string fi;
      do full <- (if is_absolute path then Ok path
                  else do d <- yget y "directory"; do dir <- as_string d; Ok (dir ++ "/" ++ path));
      do ob <- createSingleBody dim (as_string_or ty "points") full;
      match ob with
      | Some x => Ok (as_string_or nm ("body" ++ itos i), x)
      | None => UB
      end
  end.

(** src/body/bodypack.cpp:54-138 (init): names and bodies, in order. *)
Definition pack_init (dim : Z) (y : node) : res (list (string * body)) :=
  do bs <- yget y "bodies";
  match bs with
  | None => Err PETSC_ERR_ARG_WRONG
  | Some b => mapM (pack_body dim y) (zrange 0 (ysize b))
  end.

(** src/body/bodypack.cpp:326-334 *)
Definition createBodyPack (dim : Z) (y : node) : res (option (list (string * body))) :=
  ctor (pack_init dim y).
End Bodies.

Section Solvers.
Local Open Scope string_scope.
(** Built with AmgX or not; [load_options] is PetscOptionsInsertFile. *)
Variable have_amgx : bool.
Variable load_options : string -> bool.

Inductive linsolver := KSP (name config : string) | AmgX (name config : string).

(** src/linsolver/linsolverksp.cpp:50-72 (init); the options file is read
    unless config is "None". *)
Definition ksp_init (name config : string) : res linsolver :=
  if String.eqb config "None" || load_options config then Ok (KSP name config)
  else Err PETSC_ERR_FILE_OPEN.

(** src/linsolver/linsolver.cpp:57-91 *)
Definition createLinSolver (name : string) (y : node) : res (option linsolver) :=
  let key := name ++ "Solver" in
  do ps <- yget y "parameters";
  do p1 <- yget ps key;
  do ty <- yget p1 "type";
  do co <- yget p1 "config";
  let type := as_string_or ty "CPU" in
  let config := as_string_or co "None" in
  do path <- (if negb (is_absolute config) && negb (String.eqb config "None")
              then do d <- yget y "directory"; do dir <- as_string d; Ok (dir ++ "/" ++ config)
              else Ok config);
  if String.eqb type "CPU" then ctor (ksp_init name path)
  else if String.eqb type "GPU" then
    if have_amgx then Ok (Some (AmgX name path)) else Err PETSC_ERR_ARG_WRONG
  else Err PETSC_ERR_ARG_WRONG.
End Solvers.

(** src/misc/probes.cpp:23-50: which probe the factory builds. *)
Definition createProbe_kind (y : node) : res probetype :=
  do t <- yget y "type"%string;
  match decode_probetype (as_string_or t "VOLUME"%string) with
  | VOLUME => Ok VOLUME
  | POINT => Ok POINT
  | _ => Err PETSC_ERR_ARG_UNKNOWN_TYPE
  end.

(** * Initial conditions *)

Section Initial.
Variable rd : reader.
(** SymEngine: parse followed by LambdaRealDoubleVisitor::init on the symbols
    x, y, z, t, nu; [None]: the expression is rejected (exception). *)
Variable lambdify : string -> option (R -> R -> R -> R -> R -> R).
Local Open Scope string_scope.

Definition expr : Type := (R -> R -> R -> R -> R -> R)%type.

Definition compile (s : string) : res expr :=
  match lambdify s with Some g => Ok g | None => Err EXC end.

(** src/parser/parser.cpp:396-443. [None] is a LambdaRealDoubleVisitor that was
    never initialised. *)
Definition parseICs (y : node) : res (list (option expr)) :=
  do flow <- yget y "flow";
  match flow with
  | None => Err PETSC_ERR_ARG_OUTOFRANGE
  | Some fl =>
      do iv <- yget (Some fl) "initialVelocity";
      match iv with
      | None => Err PETSC_ERR_ARG_OUTOFRANGE
      | Some temp =>
          do ls <- foldM (fun ls i =>
                     do e <- yidx (Some temp) i; do s <- as_string e; do g <- compile s;
                     wr ls i (Some g))
                   (zrange 0 (ysize temp)) [None; None; None; None];
          do ip <- yget (Some fl) "initialPressure";
          do s <- (match ip with Some _ => as_string ip | None => Ok "0" end);
          do g <- compile s;
          wr ls 3 (Some g)
      end
  end.

(** ICs[f].call({coord[f][0][i], coord[f][1][j], coord[f][2][k], 0.0, nu});
    calling an uninitialised visitor is undefined. *)
Definition eval_ic (m : mesh) (nu : R) (ics : list (option expr)) (f : Z) (p : Z * Z * Z) : res R :=
  let '(i, j, k) := p in
  do g <- Prelude.rd ics f;
  match g with
  | None => UB
  | Some h => do x <- m_coord m f 0 i; do y <- m_coord m f 1 j; do z <- m_coord m f 2 k; Ok (h x y z 0 nu)
  end.

(** A vector from the local arrays of the ranks, rank by rank. *)
Definition vec_of (parts : list (list R)) : Z -> R :=
  fun id => match nthZ (concat parts) id with Some x => x | None => 0 end.

(** src/solution/solutionsimple.cpp:122-226, all ranks together: every rank
    fills, component by component, its part of the packed velocity vector (the
    loops k, j, i run in storage order over all local points) and its part of
    the pressure vector. *)
Definition setInitialConditions (y : node) (m : mesh) (D : dec) : res solution :=
  do flow <- yget y "flow";
  do nun <- yget flow "nu";
  match nun with
  | None => Err PETSC_ERR_USER_INPUT
  | Some _ =>
      do nu <- as_real rd nun;
      do ics <- parseICs y;
      do us <- mapM (fun r => do parts <- mapM (fun f => mapM (eval_ic m nu ics f) (local_points D f r))
                                               (zrange 0 (m_dim m));
                              Ok (concat parts)) (zrange 0 (nranks D));
      do ps <- mapM (fun r => mapM (eval_ic m nu ics 3) (local_points D 3 r)) (zrange 0 (nranks D));
      Ok (mkSol (vec_of us) (vec_of ps))
  end.
End Initial.
