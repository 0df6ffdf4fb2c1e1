(** Model of the index functions of src/mesh/cartesianmesh.cpp and of
    checkPeriodicBC in src/misc/misc.cpp. Integers only. *)
From Verif Require Import Prelude ZSum TypesModel.
Local Open Scope Z_scope.

(** * checkPeriodicBC *)

Definition upd2 {A} (t : Z -> Z -> A) (f d : Z) (x : A) : Z -> Z -> A :=
  fun f' d' => if (f' =? f) && (d' =? d) then x else t f' d'.

Definition is_periodic (b : bctype) : bool := bctype_eqb b PERIODIC.
Definition is_nobc (b : bctype) : bool := bctype_eqb b NOBC.

(** src/misc/misc.cpp:19-83. [bc f loc] is bcTypes[f][loc] (a 3x6 table). *)
Definition checkPeriodicBC (bc : Z -> Z -> bctype) : res (Z -> Z -> bool) :=
  do per <- foldM (fun per fd =>
              let '(f, d) := fd in
              let p1 := is_periodic (bc f (d * 2)) in
              let p2 := is_periodic (bc f (d * 2 + 1)) in
              if p1 && negb p2 then Err PETSC_ERR_ARG_INCOMP
              else if negb p1 && p2 then Err PETSC_ERR_ARG_INCOMP
              else Ok (if p1 && p2 then upd2 per f d true else per))
            (list_prod (zrange 0 3) (zrange 0 3)) (fun _ _ => false);
  let dim := if forallb (fun l => is_nobc (bc 2 l)) (zrange 0 6) then 2 else 3 in
  do _ <- foldM (fun _ d =>
              let c := fold_left (fun c f => if (per f d : bool) then c + 1 else c) (zrange 0 3) 0 in
              if negb (c =? 0) && negb (c =? dim) then Err PETSC_ERR_ARG_INCOMP else Ok tt)
            (zrange 0 3) tt;
  Ok per.

(** * getNaturalIndex *)

(** src/mesh/cartesianmesh.cpp:592-676. [n] are the sizes of the field,
    [per] is periodic[0][.]. [debug] = true models a build without NDEBUG
    (range check of lines 601-607). *)
Definition getNaturalIndex (debug : bool) (dim : Z) (n : Z -> Z) (per : Z -> bool) (i j k : Z) : res Z :=
  let koff k := if dim =? 3 then k * n 1 * n 0 else 0 in
  if debug && ((i <? -1) || (i >? n 0) || (j <? -1) || (j >? n 1) || (k <? -1) || (k >? n 2))
  then Err PETSC_ERR_ARG_WRONG
  else if i =? -1 then
    Ok (if per 0 then (n 0 - 1) + j * n 0 + koff k else -1)
  else if i =? n 0 then
    Ok (if per 0 then j * n 0 + koff k else -1)
  else if j =? -1 then
    Ok (if per 1 then i + (n 1 - 1) * n 0 + koff k else -1)
  else if j =? n 1 then
    Ok (if per 1 then i + koff k else -1)
  else if k =? -1 then
    Ok (if per 2 then i + j * n 0 + (if dim =? 3 then (n 2 - 1) * n 1 * n 0 else 0) else -1)
  else if k =? n 2 then
    Ok (if per 2 then i + j * n 0 else -1)
  else Ok (i + j * n 0 + koff k).

(** * Domain decomposition (DMDA) *)

(** Process grid and local sizes. [ds_l f d q] is the number of points of
    field f that the q-th slab of processes in direction d owns. *)
Record dec := mkDec { ds_np : Z -> Z; ds_l : Z -> Z -> Z -> Z }.

Definition nranks (D : dec) : Z := ds_np D 0 * ds_np D 1 * ds_np D 2.

(** PETSc rank numbering of the process grid: x fastest. *)
Definition rcoord (D : dec) (d r : Z) : Z :=
  if d =? 0 then r mod ds_np D 0
  else if d =? 1 then (r / ds_np D 0) mod ds_np D 1
  else r / (ds_np D 0 * ds_np D 1).

(** bg, m, ed of createSingleDMDA (cartesianmesh.cpp:521-535): corners of the
    local box as DMDAGetLocalInfo reports them. *)
Definition d_bg (D : dec) (f d r : Z) : Z := isum (ds_l D f d) 0 (rcoord D d r).
Definition d_m (D : dec) (f d r : Z) : Z := ds_l D f d (rcoord D d r).
Definition d_ed (D : dec) (f d r : Z) : Z := d_bg D f d r + d_m D f d r.

(** PETSc's default split when lx = ly = lz = NULL (da2.c, da3.c):
    lx[i] = M/m + ((M % m) > i). *)
Definition dmda_l (M m q : Z) : Z := M / m + (if M mod m >? q then 1 else 0).
Definition default_dec (np : Z -> Z) (n : Z -> Z -> Z) : dec :=
  mkDec np (fun f d q => dmda_l (n f d) (np d) q).

(** DMDA refuses a process grid finer than the mesh ("Partition in x direction
    is too fine"), PETSC_ERR_ARG_OUTOFRANGE. All fields use the same process
    grid (cartesianmesh.cpp:505-517). *)
Definition createDMDAs (dim : Z) (np : Z -> Z) (n : Z -> Z -> Z) : res dec :=
  if forallb (fun f => forallb (fun d => np d <=? n f d) (zrange 0 dim)) (3 :: zrange 0 dim)
  then Ok (default_dec np n) else Err PETSC_ERR_ARG_OUTOFRANGE.

(** Points of a local box, in the storage order of a DMDA vector (i fastest). *)
Definition box (i0 i1 j0 j1 k0 k1 : Z) : list (Z * Z * Z) :=
  flat_map (fun k => flat_map (fun j => map (fun i => (i, j, k)) (zrange i0 i1)) (zrange j0 j1)) (zrange k0 k1).
Definition local_points (D : dec) (f r : Z) : list (Z * Z * Z) :=
  box (d_bg D f 0 r) (d_ed D f 0 r) (d_bg D f 1 r) (d_ed D f 1 r) (d_bg D f 2 r) (d_ed D f 2 r).

(** Natural index of an interior point (DMDA's application ordering). *)
Definition natural (n : Z -> Z) (p : Z * Z * Z) : Z :=
  let '(i, j, k) := p in i + j * n 0 + k * n 1 * n 0.

(** DMDA global ordering: rank by rank, local storage order. *)
Definition petsc_order (D : dec) (n : Z -> Z) (f : Z) : list Z :=
  flat_map (fun r => map (natural n) (local_points D f r)) (zrange 0 (nranks D)).

(** AOApplicationToPetsc for the DMDA's AO (aobasic.c): the global position of
    a natural index; indices out of range (in particular -1) give -1. *)
Definition ao_apply (D : dec) (n : Z -> Z) (f idx : Z) : Z :=
  match findpos Z.eqb idx (petsc_order D n f) 0 with Some a => a | None => -1 end.

(** src/mesh/cartesianmesh.cpp:709-721. *)
Definition getGlobalIndex (debug : bool) (dim : Z) (n : Z -> Z -> Z) (per : Z -> bool) (D : dec)
           (f i j k : Z) : res Z :=
  do idx <- getNaturalIndex debug dim (n f) per i j k; Ok (ao_apply D (n f) f idx).

(** * initDMDA *)
Definition upd1 (t : Z -> Z) (i x : Z) : Z -> Z := fun j => if j =? i then x else t j.

(** src/mesh/cartesianmesh.cpp:447-457: MPI_Allgather of the local counts; the
    arrays of the unused third component stay 0 (lines 96-106). *)
Definition UNLocalAllProcs (dim : Z) (D : dec) (f r : Z) : Z :=
  if f <? dim then d_m D f 0 r * d_m D f 1 r * d_m D f 2 r else 0.

(** src/mesh/cartesianmesh.cpp:464-471 and 479-483: shift down, then
    accumulate. *)
Definition offsets_of (size : Z) (cnt : Z -> Z) : Z -> Z :=
  let o1 := fold_left (fun o r => upd1 o r (cnt (r - 1))) (rev (zrange 1 size)) (fun _ => 0) in
  fold_left (fun o r => upd1 o r (o r + o (r - 1))) (zrange 1 size) o1.

Definition offsetsAllProcs (dim : Z) (D : dec) (f : Z) : Z -> Z :=
  offsets_of (nranks D) (UNLocalAllProcs dim D f).

(** src/mesh/cartesianmesh.cpp:474-476. *)
Definition UPackNLocalAllProcs (dim : Z) (D : dec) (r : Z) : Z :=
  UNLocalAllProcs dim D 0 r + UNLocalAllProcs dim D 1 r + UNLocalAllProcs dim D 2 r.
Definition offsetsPackAllProcs (dim : Z) (D : dec) : Z -> Z :=
  offsets_of (nranks D) (UPackNLocalAllProcs dim D).

(** std::upper_bound on a sorted range: position of the first element that is
    greater than the value. *)
Fixpoint upper_bound (l : list Z) (v : Z) : Z :=
  match l with [] => 0 | x :: t => if v <? x then 0 else 1 + upper_bound t v end.

(** src/mesh/cartesianmesh.cpp:740-779. *)
Definition getPackedGlobalIndex (debug : bool) (dim : Z) (n : Z -> Z -> Z) (per : Z -> bool) (D : dec)
           (f i j k : Z) : res Z :=
  do un <- getGlobalIndex debug dim n per D f i j k;
  if (f =? 3) || (un =? -1) then Ok un
  else
    let offs := offsetsAllProcs dim D f in
    let p := upper_bound (map offs (zrange 0 (nranks D))) un - 1 in
    let idx0 := offsetsPackAllProcs dim D p in
    let idx1 := fold_left (fun s g => s + UNLocalAllProcs dim D g p) (zrange 0 f) idx0 in
    Ok (idx1 + (un - offs p)).

(** * getLocalIndex *)

(** DMDAConvertToCell (PETSc): index in the ghosted local array of rank r;
    the ghosted box is one point wider on both sides of every simulated
    direction. Outside of it: PETSC_ERR_ARG_OUTOFRANGE. *)
Definition getLocalIndex (dim : Z) (D : dec) (f r : Z) (s : stencil) : res Z :=
  let lo d := if d <? dim then d_bg D f d r - 1 else d_bg D f d r in
  let hi d := if d <? dim then d_ed D f d r + 1 else d_ed D f d r in
  let il := si s - lo 0 in
  let jl := sj s - lo 1 in
  let kl := if 2 <? dim then sk s - lo 2 else 0 in
  if (si s <? lo 0) || (si s >=? hi 0) then Err PETSC_ERR_ARG_OUTOFRANGE
  else if (sj s <? lo 1) || (sj s >=? hi 1) then Err PETSC_ERR_ARG_OUTOFRANGE
  else if (2 <? dim) && ((sk s <? lo 2) || (sk s >=? hi 2)) then Err PETSC_ERR_ARG_OUTOFRANGE
  else Ok ((kl * (hi 1 - lo 1) + jl) * (hi 0 - lo 0) + il).
