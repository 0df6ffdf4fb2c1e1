(** Model of the utilities petibm-createxdmf (applications/createxdmf/main.cpp)
    and petibm-writemesh (applications/writemesh/main.cpp), and of the programs
    of the utilities from their settings. *)
From Coq Require Import Ascii String.
From Verif Require Import Prelude ZSum RSum TypesModel GridModel IndexModel BoundaryModel OperatorModel OperatorSpec MatModel
  NSModel NameModel DriverModel ConfigModel ProgModel VortModel.
Local Open Scope R_scope.

(** * The index of one field *)

(** A data item: an array given by its dimensions (slowest first) and stored as
    a dataset of an HDF5 file or as numbers in the XML text. *)
Inductive ditem := HDFItem (dims : list Z) (path name : string) | XMLItem (dims : list Z) (values : list R).
(** One element Grid of the temporal collection: its name, the attribute Value
    of Time, the dimensions of the topology (3DRectMesh), the items of the
    geometry (VXVYVZ), the name of the attribute (scalar, at nodes) and its
    item. The entities of the document (Nx, Ny, Nz, Topo, Geo, CaseDir) are
    expanded; the XML syntax is not modelled. *)
Record xgrid := mkXG { xg_name : string; xg_time : Z; xg_topology : list Z; xg_geometry : list ditem; xg_attribute : string; xg_data : ditem }.

(** createxdmf/main.cpp:170-200: entity Geo. &CaseDir; is the directory of the
    XDMF file, which is [dir]. *)
Definition xdmf_geometry (dir name : string) (dim : Z) (n : Z -> Z) : list ditem :=
  map (fun i => HDFItem [n i] (dir ++ "/grid.h5")%string (coord_name name i)) (zrange 0 dim)
  ++ (if (dim =? 2)%Z then [XMLItem [n 2%Z] [0]] else []).
(** createxdmf/main.cpp:220-262: one iteration of the loop. *)
Definition xdmf_grid (dir name : string) (dim : Z) (n : Z -> Z) (t : Z) : xgrid :=
  mkXG (name ++ " Grid")%string t [n 2; n 1; n 0]%Z (xdmf_geometry dir name dim n) name
       (HDFItem [n 2; n 1; n 0]%Z (fst (xdmf_entry dir name t)) ("/" ++ name)%string).
(** createxdmf/main.cpp:121-271: the name of the file and its elements Grid; None
    when the loop has not ended after [fuel] iterations. *)
Definition writeSingleXDMF (fuel : nat) (dir name : string) (dim : Z) (n : Z -> Z) (bg ed step : Z) : option (string * list xgrid) :=
  match xdmf_steps fuel bg ed step with
  | Some l => Some ((dir ++ "/" ++ name ++ ".xmf")%string, map (xdmf_grid dir name dim n) l)
  | None => None
  end.

(** createxdmf/main.cpp:89-96, 104-116: sizes of the components of the
    vorticity. *)
Definition xdmf_wn (m : mesh) (c d : Z) : Z := m_n m (if (d =? c)%Z then 3 else 4)%Z d.
(** createxdmf/main.cpp:75-117: u, v, p, wz and, in 3D, w, wx, wy. *)
Definition xdmf_fields (m : mesh) : list (string * (Z -> Z)) :=
  [("u", m_n m 0); ("v", m_n m 1); ("p", m_n m 3); ("wz", xdmf_wn m 2)]%string
  ++ (if (m_dim m =? 3)%Z then [("w", m_n m 2); ("wx", xdmf_wn m 0); ("wy", xdmf_wn m 1)]%string else []).
Fixpoint write_all_xdmf (fuel : nat) (dir : string) (dim : Z) (bg ed step : Z) (fs : list (string * (Z -> Z))) : option (list (string * list xgrid)) :=
  match fs with
  | [] => Some []
  | (name, n) :: t =>
      match writeSingleXDMF fuel dir name dim n bg ed step with
      | None => None
      | Some x => match write_all_xdmf fuel dir dim bg ed step t with Some xs => Some (x :: xs) | None => None end
      end
  end.
Definition xdmf_main (fuel : nat) (m : mesh) (out : string) (bg ed step : Z) : option (list (string * list xgrid)) :=
  write_all_xdmf fuel out (m_dim m) bg ed step (xdmf_fields m).

(** * The programs *)
Section Programs.
Variable rd : reader.
Variable np : Z -> Z.
Local Open Scope string_scope.

(** createxdmf/main.cpp:57-73 and vorticity/main.cpp:112-121: the range of steps.
    [obg], [oed], [ostep]: the options -bg, -ed, -step of the command line. *)
Definition step_range (obg oed ostep : option Z) (y : node) : res (Z * Z * Z) :=
  do bg <- match obg with
           | Some x => Ok x
           | None => do ps <- yget_mut y "parameters"; do s <- yget_mut ps "startStep"; Ok (as_int_or rd s 0)
           end;
  do ed <- match oed with
           | Some x => Ok x
           | None => do ps <- yget_mut y "parameters"; do s <- yget_mut ps "nt"; do nt <- as_int rd s; Ok (bg + nt)%Z
           end;
  do step <- match ostep with
             | Some x => Ok x
             | None => do ps <- yget_mut y "parameters"; do s <- yget_mut ps "nsave"; as_int rd s
             end;
  Ok (bg, ed, step).

(** createxdmf/main.cpp:46-119 after getSettings. *)
Definition xdmf_program (fuel : nat) (obg oed ostep : option Z) (y : node) : res (option (list (string * list xgrid))) :=
  do MD <- used (createMesh rd np y); let '(m, D) := MD in
  do r <- step_range obg oed ostep y; let '(bg, ed, step) := r in
  do on <- yget_mut y "output"; do out <- as_string on;
  Ok (xdmf_main fuel m out bg ed step).

(** vorticity/main.cpp:61-181 after getSettings. *)
Definition vort_program (fuel : nat) (obg oed ostep : option Z) (y : node) (d : disk) : res (option disk) :=
  do MD <- used (createMesh rd np y); let '(m, D) := MD in
  do _ <- mapM (fun r => used (createBoundary_factory rd m D r y)) (zrange 0 (nranks D));
  do tv <- parseBCs rd y;
  do on <- yget_mut y "output"; do out <- as_string on;
  do r <- step_range obg oed ostep y; let '(bg, ed, step) := r in
  vort_main fuel m D (fst tv) (snd tv) out bg ed step d.

(** writemesh/main.cpp:25-54 after getSettings. [ofile]: the option -file. *)
Definition writemesh_program (ofile : option string) (y : node) (d : disk) : res disk :=
  do MD <- used (createMesh rd np y); let '(m, D) := MD in
  do on <- yget_mut y "output"; do out <- as_string on;
  do ops <- mesh_write m (match ofile with Some p => p | None => out ++ "/grid.h5" end);
  Ok (run_ops ops d).
End Programs.
