(** Model of the input/output and of the main loop of the Navier-Stokes
    application: applications/navierstokes/{navierstokes.cpp, main.cpp},
    src/solution/solutionsimple.cpp (write, read), src/io/io.cpp. *)
From Coq Require Import String.
From Verif Require Import Prelude ZSum RSum TypesModel GridModel IndexModel IndexSpec BoundaryModel OperatorModel OperatorSpec MatModel
  NSModel NameModel.
Local Open Scope R_scope.

(** * Files *)

(** An HDF5 file: datasets by full name, the attribute "time" of "/p"; an ASCII
    file: the step numbers at the head of its lines (other columns are not
    modelled). *)
Record file := mkFile { f_sets : string -> option (list R); f_time : option R; f_text : list Z }.
Definition empty_file : file := mkFile (fun _ => None) None [].
Definition disk : Type := string -> option file.

(** Elementary file operations. [OpenNew]: FILE_MODE_WRITE (create or truncate);
    [OpenApp]: FILE_MODE_APPEND (create if absent); [Put]: VecView, which
    creates the dataset or overwrites it; [PutTime]: the attribute; [PutText]:
    one line; [Close]: PetscViewerDestroy. *)
Inductive fsop :=
| OpenNew (p : string) | OpenApp (p : string)
| Put (p : string) (name : string) (data : list R)
| PutTime (p : string) (t : R)
| PutText (p : string) (n : Z)
| Close (p : string).
Definition op_path (o : fsop) : string :=
  match o with OpenNew p | OpenApp p | Put p _ _ | PutTime p _ | PutText p _ | Close p => p end.
Definition dget (d : disk) (p : string) : file := match d p with Some F => F | None => empty_file end.
Definition dset (d : disk) (p : string) (F : file) : disk := fun q => if String.eqb p q then Some F else d q.
Definition apply_op (d : disk) (o : fsop) : disk :=
  match o with
  | OpenNew p => dset d p empty_file
  | OpenApp p => dset d p (dget d p)
  | Put p name data => let F := dget d p in
      dset d p (mkFile (fun q => if String.eqb name q then Some data else f_sets F q) (f_time F) (f_text F))
  | PutTime p t => let F := dget d p in dset d p (mkFile (f_sets F) (Some t) (f_text F))
  | PutText p n => let F := dget d p in dset d p (mkFile (f_sets F) (f_time F) (f_text F ++ [n]))
  | Close p => d
  end.
Definition run_ops (ops : list fsop) (d : disk) : disk := fold_left apply_op ops d.

(** * Fields in files *)

(** Component and natural index of every entry of the composite velocity
    vector, in storage order (DMComposite: rank by rank, component by
    component). *)
Definition pair_eqb (a b : Z * Z) : bool := (fst a =? fst b)%Z && (snd a =? snd b)%Z.
Definition packed_order (m : mesh) (D : dec) : list (Z * Z) :=
  flat_map (fun r => flat_map (fun f => map (fun p => (f, natural (m_n m f) p)) (local_points D f r)) (zrange 0 (m_dim m)))
           (zrange 0 (nranks D)).
(** VecView of a DMDA vector in an HDF5 viewer writes in natural order
    (DMDAGlobalToNatural). Velocity component f, then pressure. *)
Definition component_data (m : mesh) (D : dec) (U : vec) (f : Z) : list R :=
  map (fun k => match findpos pair_eqb (f, k) (packed_order m D) 0 with Some i => U i | None => 0 end)
      (zrange 0 (npoints (m_n m f))).
Definition pressure_data (m : mesh) (D : dec) (p : vec) : list R :=
  map (fun k => match findpos Z.eqb k (petsc_order D (m_n m 3) 3) 0 with Some i => p i | None => 0 end)
      (zrange 0 (npoints (m_n m 3))).
(** VecView of the composite vector itself (VecView_DMComposite falls back on
    the plain parallel vector): storage order. *)
Definition packed_data (m : mesh) (v : vec) : list R := map v (zrange 0 (n_velocity m)).

(** src/misc/type.cpp:25: type::fd2str. *)
Definition fd2str (f : Z) : string :=
  if (f =? 0)%Z then "u" else if (f =? 1)%Z then "v" else if (f =? 2)%Z then "w" else if (f =? 3)%Z then "p" else "vertex".
Definition set_name (f : Z) : string := String.append "/" (fd2str f).

(** solutionsimple.cpp:229-259 with io.cpp:137-167. *)
Definition solution_write (m : mesh) (D : dec) (path : string) (U p : vec) : list fsop :=
  [OpenNew path] ++ map (fun f => Put path (set_name f) (component_data m D U f)) (zrange 0 (m_dim m))
  ++ [Put path "/p" (pressure_data m D p); Close path].

(** VecLoad of a dataset of a given length (PETSC_ERR_FILE_OPEN,
    PETSC_ERR_LIB, PETSC_ERR_FILE_UNEXPECTED). *)
Definition load (d : disk) (path name : string) (len : Z) : res (list R) :=
  match d path with
  | None => Err PETSC_ERR_FILE_OPEN
  | Some F => match f_sets F name with
              | None => Err 76
              | Some l => if (lenZ l =? len)%Z then Ok l else Err 79
              end
  end.
(** solutionsimple.cpp:262-292 with io.cpp:243-271: the new vectors. *)
Definition solution_read (m : mesh) (D : dec) (path : string) (d : disk) (U p : vec) : res (vec * vec) :=
  do ls <- mapM (fun f => load d path (set_name f) (npoints (m_n m f))) (zrange 0 (m_dim m));
  do lp <- load d path "/p" (npoints (m_n m 3));
  Ok ((fun i => match nthZ (packed_order m D) i with
                | Some (f, k) => match nthZ ls f with
                                 | Some l => match nthZ l k with Some x => x | None => U i end
                                 | None => U i end
                | None => U i end),
      (fun i => match nthZ (petsc_order D (m_n m 3) 3) i with
                | Some k => match nthZ lp k with Some x => x | None => p i end
                | None => p i end)).

(** * Solver output *)
Record ioconf := mkConf { c_out : string; c_logs : string; c_nstart : Z; c_nt : Z; c_nsave : Z; c_nrestart : Z }.

(** navierstokes.cpp:615-634 and 797-815. *)
Definition write_solution (m : mesh) (D : dec) (path : string) (s : nsstate) : list fsop :=
  solution_write m D path (s_U s) (s_p s) ++ [OpenApp path; PutTime path (s_t s); Close path].

Definition history_name (group : string) (i : Z) : string := (group ++ "/" ++ to_string i)%string.
Definition put_history (m : mesh) (path group : string) (h : list vec) : list fsop :=
  map (fun iv => Put path (history_name group (fst iv)) (packed_data m (snd iv))) (combine (zrange 0 (lenZ h)) h).
(** navierstokes.cpp:637-688. [d] is the disk at the time of the call
    (PetscTestFile). *)
Definition write_restart (m : mesh) (D : dec) (path : string) (s : nsstate) (d : disk) : list fsop :=
  (match d path with Some _ => [] | None => write_solution m D path s end)
  ++ [OpenApp path] ++ put_history m path "/convection" (s_conv s) ++ put_history m path "/diffusion" (s_diff s) ++ [Close path].

(** navierstokes.cpp:691-746. *)
Definition load_history (m : mesh) (d : disk) (path group : string) (h : list vec) : res (list vec) :=
  mapM (fun iv => do l <- load d path (history_name group (fst iv)) (n_velocity m);
                  Ok (fun i => match nthZ l i with Some x => x | None => snd iv i end))
       (combine (zrange 0 (lenZ h)) h).
Definition read_restart (m : mesh) (D : dec) (path : string) (d : disk) (s : nsstate) : res nsstate :=
  match d path with
  | None => Err PETSC_ERR_FILE_READ
  | Some F =>
      do (U, p) <- solution_read m D path d (s_U s) (s_p s);
      do t <- match f_time F with Some t => Ok t | None => Err 76 end;
      do cs <- load_history m d path "/convection" (s_conv s);
      do ds <- load_history m d path "/diffusion" (s_diff s);
      do B <- bc_call m D (OpICs U) (s_bc s);
      Ok (mkNS t (s_ite s) U p (s_dP s) cs ds B)
  end.

(** navierstokes.cpp:269-308. [mon s] are the operations of monitorProbes
    (modelled in ProbeModel.v). C++ % truncates; % 0 is undefined. The message
    lines on the terminal are not modelled. *)
Definition write_step (conf : ioconf) (m : mesh) (D : dec) (mon : nsstate -> list fsop) (s : nsstate) (d : disk) : res (list fsop) :=
  let path := solution_path (c_out conf) (s_ite s) in
  let ops1 := [PutText (iterations_path (c_out conf) (c_nstart conf)) (s_ite s)] in
  if (c_nsave conf =? 0)%Z then UB
  else
    let ops2 := if (Z.rem (s_ite s) (c_nsave conf) =? 0)%Z
                then write_solution m D path s ++ [OpenNew (log_path (c_logs conf) (s_ite s)); Close (log_path (c_logs conf) (s_ite s))]
                else [] in
    if (c_nrestart conf =? 0)%Z then UB
    else
      let ops3 := if (Z.rem (s_ite s) (c_nrestart conf) =? 0)%Z then write_restart m D path s (run_ops (ops1 ++ ops2) d) else [] in
      Ok (ops1 ++ ops2 ++ ops3 ++ mon s).

(** navierstokes.cpp:207-237. *)
Definition io_initial (conf : ioconf) (m : mesh) (D : dec) (s : nsstate) (d : disk) : res (nsstate * list fsop) :=
  let path := solution_path (c_out conf) (s_ite s) in
  if (s_ite s =? 0)%Z then Ok (s, write_solution m D path s)
  else do s' <- read_restart m D path d s; Ok (s', []).

(** navierstokes.cpp:311-314. *)
Definition finished (conf : ioconf) (s : nsstate) : bool := (s_ite s >=? c_nstart conf + c_nt conf)%Z.

(** The loop of main (applications/navierstokes/main.cpp:63-70). [step] is
    advance(). The result is None when the loop has not ended after [fuel]
    iterations; otherwise the last state, the disk, and the operations of every
    write() with its step number. *)
Fixpoint drive (fuel : nat) (conf : ioconf) (m : mesh) (D : dec) (mon : nsstate -> list fsop)
    (step : nsstate -> res nsstate) (s : nsstate) (d : disk) : res (option (nsstate * disk * list (Z * list fsop))) :=
  if finished conf s then Ok (Some (s, d, []))
  else
    match fuel with
    | O => Ok None
    | S f =>
        do s' <- step s;
        do ops <- write_step conf m D mon s' d;
        do r <- drive f conf m D mon step s' (run_ops ops d);
        Ok (match r with Some (s2, d2, tr) => Some (s2, d2, (s_ite s', ops) :: tr) | None => None end)
    end.

(** src/mesh/cartesianmesh.cpp:798-823 with io.cpp:169-203, on rank 0: for every
    field (u, v, w, p, vertex) a group with the coordinates of its points along
    x, y and z: the n[f][d] values that start at coord[f][d][0]. The first call
    creates the file, the next ones append to it. *)
Definition dir2str (d : Z) : string := if (d =? 0)%Z then "x" else if (d =? 1)%Z then "y" else "z".
Definition coord_name (group : string) (d : Z) : string := ("/" ++ group ++ "/" ++ dir2str d)%string.
Definition grid_coords (m : mesh) (f d : Z) : res (list R) := mapM (fun i => m_coord m f d i) (zrange 0 (m_n m f d)).
Definition mesh_write (m : mesh) (path : string) : res (list fsop) :=
  do l <- mapM (fun f =>
            do cs <- mapM (fun d => do c <- grid_coords m f d; Ok (Put path (coord_name (fd2str f) d) c)) (zrange 0 3);
            Ok ([if (f =? 0)%Z then OpenNew path else OpenApp path] ++ cs ++ [Close path])) (zrange 0 5);
  Ok (concat l).
Definition grid_path (out : string) : string := (out ++ "/grid.h5")%string.

(** main.cpp:45-78 with init (navierstokes.cpp:93-204): the grid file (line 129)
    and the iterations file are created first. Writing the grid file does not
    fail and stays in the arrays (theorem grid_file_written), which is why its
    error case is not propagated here. *)
Definition init_ops (m : mesh) (conf : ioconf) : list fsop :=
  (match mesh_write m (grid_path (c_out conf)) with Ok ops => ops | _ => [] end)
  ++ [OpenNew (iterations_path (c_out conf) (c_nstart conf))].
Definition ns_main (fuel : nat) (conf : ioconf) (m : mesh) (D : dec) (P : nspar) (types : Z -> Z -> bctype) (values : Z -> Z -> R)
    (t0 : R) (U0 p0 : vec) (mon : nsstate -> list fsop) (conv : boundary -> vec -> res vec) (vs ps : vec -> vec -> vec) (d : disk)
    : res (option (nsstate * disk * list (Z * list fsop))) :=
  do (ops, s0) <- ns_init m D P types values t0 (c_nstart conf) U0 p0;
  let d1 := run_ops (init_ops m conf) d in
  do (s1, w) <- io_initial conf m D s0 d1;
  do r <- drive fuel conf m D mon (advance m D P ops conv vs ps) s1 (run_ops w d1);
  Ok (match r with Some (s2, d2, tr) => Some (s2, d2, (s_ite s1, w) :: tr) | None => None end).
