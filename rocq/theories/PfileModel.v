(** Model of the files the probes write during a run (src/misc/probes.cpp,
    applications/navierstokes/navierstokes.cpp:167-178, 839-856), and of the
    main functions with their probes. ProbeModel.v has the objects themselves;
    the other models of main take what a probe writes as a function of the state
    of the solver, here a probe also keeps its own state (the accumulator of the
    averages). *)
From Coq Require Import Ascii String.
From Verif Require Import Prelude ZSum RSum TypesModel GridModel IndexModel IndexSpec BoundaryModel OperatorModel OperatorSpec MatModel ConvModel
  BodyModel DeltaModel ProbeModel NSModel NameModel DriverModel IbpmModel IbOutModel ConfigModel ProgModel.
Local Open Scope R_scope.

(** * Names of datasets *)

(** The nearest multiple of 10^-6, ties to even. *)
Definition micro (x : R) : Z :=
  let y := x * 1000000 in
  let k := Int_part y in
  if Rlt_dec (frac_part y) (1 / 2) then k
  else if Rlt_dec (1 / 2) (frac_part y) then (k + 1)%Z
  else if Z.even k then k else (k + 1)%Z.
Definition insert_point (s : string) : string :=
  let k := (String.length s - 6)%nat in (substring 0 k s ++ "." ++ substring k 6 s)%string.
(** std::to_string on a real number, that is printf "%f" (probes.cpp:559, 564). *)
Definition real_name (x : R) : string :=
  ((if Rlt_dec x 0 then "-" else "") ++ insert_point (pad7 (decimal (micro (Rabs x)))))%string.

(** * Files *)

(** One piece of an ASCII file: the coordinates along a direction, the index
    set, a block of writeVec_ASCII, a line of a point probe. The text of the
    numbers is not modelled. *)
Inductive pitem := Coords (d : Z) (xs : list R) | Indices (ix : list Z) | Block (r : precord) | Line (t v : R).
(** A dataset of an HDF5 file: reals with the attribute "count", or integers. *)
Inductive hdata := HReals (l : list R) (count : option Z) | HInts (l : list Z).
Inductive pfile := Ascii (items : list pitem) | Hdf5 (sets : string -> option hdata).
Definition pdisk : Type := string -> option pfile.
Definition pset (q : pdisk) (path : string) (F : pfile) : pdisk := fun p => if String.eqb path p then Some F else q p.
Definition hput (name : string) (x : hdata) (F : pfile) : pfile :=
  match F with Hdf5 sets => Hdf5 (fun k => if String.eqb name k then Some x else sets k) | _ => F end.
Definition aput (it : pitem) (F : pfile) : pfile := match F with Ascii l => Ascii (l ++ [it]) | _ => F end.

(** writeGrid (probes.cpp:332-429) creates the file, writeIS (432-485) appends
    the index set. *)
Definition grid_pfile (hdf5 : bool) (P : vprobe) : pfile :=
  let cs := combine (zrange 0 (lenZ (vp_grid P))) (vp_grid P) in
  if hdf5 then
    hput "/mesh/IS" (HInts (concat (vp_natural P)))
      (fold_left (fun F dc => hput ("/mesh/" ++ dir2str (fst dc))%string (HReals (snd dc) None) F) cs (Hdf5 (fun _ => None)))
  else aput (Indices (concat (vp_natural P))) (fold_left (fun F dc => aput (Coords (fst dc) (snd dc)) F) cs (Ascii [])).

(** writeVec (probes.cpp:529-594). VecView overwrites a dataset that exists. *)
Definition record_name (f : Z) (t : R) : string := ("/" ++ fd2str f ++ "/" ++ real_name t)%string.
Definition put_record (f : Z) (F : pfile) (r : precord) : pfile :=
  match F with
  | Ascii _ => aput (Block r) F
  | Hdf5 _ => hput (record_name f (pr_time r)) (HReals (pr_data r) (pr_count r)) F
  end.
(** probes.cpp:681-684. *)
Definition put_line (F : pfile) (tv : R * R) : pfile := aput (Line (fst tv) (snd tv)) F.

(** * Probes of a run *)

(** What a probe keeps: a volume probe its sub-mesh and its accumulator, a point
    probe one object per rank. *)
Inductive pmem := MVolume (P : vprobe) (A : vacc) | MPoint (l : list pprobe).
(** A probe with its memory and the contents of its file. Two probes with the
    same path, or a probe with the path of another file of the program, are not
    modelled. *)
Record pst := mkPS { pt_desc : pdesc; pt_mem : pmem; pt_file : pfile }.

(** createProbe on the mesh (probes.cpp:22-49, 164-222, 607-645). Every rank opens (and
    truncates) the file of a point probe; only one writes to it. *)
Definition probe_init (m : mesh) (D : dec) (p : pdesc) : res pst :=
  let f := pc_field (pd_conf p) in
  match pd_kind p with
  | VOLUME =>
      do P <- probeVolumeInit m D f (pd_atol p) (pd_lo p) (pd_hi p);
      Ok (mkPS p (MVolume P vacc0) (grid_pfile (pd_hdf5 p) P))
  | POINT =>
      do l <- mapM (fun r => probePointInit m D r f (fun d => match nthZ (pd_loc p) d with Some x => x | None => 0 end)) (zrange 0 (nranks D));
      Ok (mkPS p (MPoint l) (Ascii []))
  | _ => Err PETSC_ERR_ARG_UNKNOWN_TYPE
  end.

(** probes.cpp:114-148 with 489-526 and 665-687. *)
Definition probe_monitor (m : mesh) (D : dec) (cl : call) (x : pst) : res pst :=
  let '(n, t, U, y) := cl in
  let p := pt_desc x in
  let f := pc_field (pd_conf p) in
  match pt_mem x with
  | MVolume P A =>
      do (A', recs) <- monitor m D (pd_conf p) (volumeMonitorVec m f P (pd_nsum p)) A U y n t;
      Ok (mkPS p (MVolume P A') (fold_left (put_record f) recs (pt_file x)))
  | MPoint l =>
      do rs <- mapM (fun rP => monitor m D (pd_conf p) (probePointMonitorVec m D (fst rP) f) (snd rP) U y n t) (combine (zrange 0 (nranks D)) l);
      Ok (mkPS p (MPoint (map fst rs)) (fold_left put_line (concat (map snd rs)) (pt_file x)))
  end.

(** What is found on disk at the end. *)
Definition probe_disk (xs : list pst) (q : pdisk) : pdisk := fold_left (fun q x => pset q (pd_path (pt_desc x)) (pt_file x)) xs q.

(** * The programs *)

(** The loop of main as [drive] (DriverModel.v) and [f_drive] (IbOutModel.v),
    with monitorProbes (navierstokes.cpp:839-856) at the end of write(). [obs]
    is what the probes are given. *)
Fixpoint p_loop {St X : Type} (fuel : nat) (ite : St -> Z) (conf : ioconf) (m : mesh) (D : dec) (step : St -> res St)
    (write : St -> disk -> res (list fsop * X)) (obs : St -> call) (s : St) (d : disk) (xs : list pst)
    : res (option (St * disk * list X * list pst)) :=
  if (ite s >=? c_nstart conf + c_nt conf)%Z then Ok (Some (s, d, [], xs))
  else
    match fuel with
    | O => Ok None
    | S k =>
        do s' <- step s;
        do (ops, x) <- write s' d;
        do xs' <- mapM (probe_monitor m D (obs s')) xs;
        do r <- p_loop k ite conf m D step write obs s' (run_ops ops d) xs';
        Ok (match r with Some (s2, d2, tr, xs2) => Some (s2, d2, x :: tr, xs2) | None => None end)
    end.

Definition no_ops {St : Type} (s : St) : list fsop := [].
Definition obs_ns (s : nsstate) : call := (s_ite s, s_t s, s_U s, s_p s).

(** applications/navierstokes/main.cpp:45-78, as [ns_main]. *)
Definition ns_main_p (fuel : nat) (conf : ioconf) (m : mesh) (D : dec) (P : nspar) (types : Z -> Z -> bctype) (values : Z -> Z -> R)
    (t0 : R) (U0 p0 : vec) (probes : list pdesc) (conv : boundary -> vec -> res vec) (vs ps : vec -> vec -> vec) (d : disk) (q : pdisk)
    : res (option (nsstate * disk * list (Z * list fsop) * pdisk)) :=
  do (ops, s0) <- ns_init m D P types values t0 (c_nstart conf) U0 p0;
  do xs <- mapM (probe_init m D) probes;
  let d1 := run_ops (init_ops m conf) d in
  do (s1, w) <- io_initial conf m D s0 d1;
  do r <- p_loop fuel s_ite conf m D (advance m D P ops conv vs ps)
            (fun s d => do o <- write_step conf m D no_ops s d; Ok (o, (s_ite s, o))) obs_ns s1 (run_ops w d1) xs;
  Ok (match r with Some (s2, d2, tr, xs2) => Some (s2, d2, (s_ite s1, w) :: tr, probe_disk xs2 q) | None => None end).

(** applications/ibpm/main.cpp:39-75, as [ib_main]. In write() the member
    pGlobal of the solution is the couple (pressure, forces) (ibpm.cpp:218-221;
    it is exchanged only inside writeSolutionHDF5 and readRestartDataHDF5), and
    that is what monitorProbes passes on. *)
Definition ib_main_p (fuel : nat) (conf : ioconf) (m : mesh) (D : dec) (P : nspar) (types : Z -> Z -> bctype) (values : Z -> Z -> R)
    (name : string) (bodies : list (body * list (list R))) (t0 : R) (U0 p0 : vec) (probes : list pdesc)
    (conv : boundary -> vec -> res vec) (vs ps : vec -> vec -> vec) (d : disk) (q : pdisk)
    : res (option (nsstate * disk * list (list R) * pdisk)) :=
  do (IO, s0) <- ib_init m D P types values name bodies t0 (c_nstart conf) U0 p0;
  do xs <- mapM (probe_init m D) probes;
  let d1 := run_ops (f_init_ops m conf) d in
  do (s1, w) <- io_initial_with s_ite (ib_write_solution m D IO) (ib_read_restart m D IO (n_forces m bodies)) conf s0 d1;
  do r <- p_loop fuel s_ite conf m D (ib_advance m D P IO conv vs ps) (ib_write conf m D IO bodies no_ops) obs_ns s1 (run_ops w d1) xs;
  Ok (match r with Some (s2, d2, ls, xs2) => Some (s2, d2, ls, probe_disk xs2 q) | None => None end).

(** applications/decoupledibpm/main.cpp:39-75, as [d_main]. *)
Definition d_main_p (fuel : nat) (conf : ioconf) (m : mesh) (D : dec) (P : nspar) (types : Z -> Z -> bctype) (values : Z -> Z -> R)
    (name : string) (bodies : list (body * list (list R))) (t0 : R) (U0 p0 : vec) (probes : list pdesc)
    (conv : boundary -> vec -> res vec) (vs ps fs : vec -> vec -> vec) (d : disk) (q : pdisk)
    : res (option (dstate * disk * list (list R) * pdisk)) :=
  do (OX, x0) <- d_init m D P types values name bodies t0 (c_nstart conf) U0 p0;
  do xs <- mapM (probe_init m D) probes;
  let d1 := run_ops (f_init_ops m conf) d in
  do (x1, w) <- io_initial_with x_ite (d_write_solution m D) (d_read_restart m D (n_forces m bodies)) conf x0 d1;
  do r <- p_loop fuel x_ite conf m D (d_advance m D P (fst OX) (snd OX) (n_forces m bodies) conv (d_assembleRHSForces m (snd OX)) vs ps fs)
            (d_write conf m D bodies no_ops) (fun x => obs_ns (x_ns x)) x1 (run_ops w d1) xs;
  Ok (match r with Some (x2, d2, ls, xs2) => Some (x2, d2, ls, probe_disk xs2 q) | None => None end).

(** The programs with moving bodies, as [r_main]. *)
Definition r_main_p (fuel : nat) (conf : ioconf) (m : mesh) (D : dec) (P : nspar) (types : Z -> Z -> bctype) (values : Z -> Z -> R)
    (name : string) (bodies : list (body * list (list R))) (mo : motion) (t0 : R) (U0 p0 : vec) (probes : list pdesc)
    (conv : boundary -> vec -> res vec) (vs ps : vec -> vec -> vec) (fs : mat -> vec -> vec -> vec) (d : disk) (q : pdisk)
    : res (option (rstate * disk * list (list R) * pdisk)) :=
  do (ops, s0) <- r_init m D P types values name bodies t0 (c_nstart conf) U0 p0;
  do xs <- mapM (probe_init m D) probes;
  let d1 := run_ops (f_init_ops m conf) d in
  do (s1, w) <- io_initial_with r_ite (fun path s => d_write_solution m D path (r_x s)) (r_read_restart m D) conf s0 d1;
  do r <- p_loop fuel r_ite conf m D (r_advance m D P ops name mo conv vs ps fs) (r_write_all conf m D no_ops)
            (fun s => obs_ns (x_ns (r_x s))) s1 (run_ops w d1) xs;
  Ok (match r with Some (s2, d2, ls, xs2) => Some (s2, d2, ls, probe_disk xs2 q) | None => None end).

(** The Navier-Stokes program from its settings, as [ns_program]. *)
Definition ns_program_p (rd : reader) (lambdify : string -> option (R -> R -> R -> R -> R -> R)) (have_amgx : bool) (load_options : string -> bool)
    (np : Z -> Z) (solver_result : linsolver -> vec -> vec -> vec) (fuel : nat) (y : node) (d : disk) (q : pdisk)
    : res (option (nsstate * disk * list (Z * list fsop) * pdisk)) :=
  do b <- ns_setup rd lambdify have_amgx load_options np y;
  ns_main_p fuel (nb_conf b) (nb_mesh b) (nb_dec b) (nb_par b) (nb_types b) (nb_values b) (nb_t b) (nb_U b) (nb_p b)
    (nb_probes b) (convection (nb_mesh b) (nb_dec b)) (solver_result (nb_vsolver b)) (solver_result (nb_psolver b)) d q.
