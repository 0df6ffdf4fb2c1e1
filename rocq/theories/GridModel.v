(** Model of the mesh part of src/parser/parser.cpp, of
    include/petibm/misc.h:stretchGrid and of the coordinate part of
    src/mesh/cartesianmesh.cpp.  Reals are exact. *)
From Coq Require Import String.
From Verif Require Import Prelude RSum TypesModel.
Local Open Scope R_scope.

(** An uncaught C++ exception (std::length_error, YAML conversion error). *)
Definition EXC : Z := (-1)%Z.
(** The code produces inf/nan here; no real number represents it. *)
Definition NONFINITE : Z := (-2)%Z.

(** One entry of "subDomains": {end, cells, stretchRatio}. *)
Record subdomain := mkSub { sd_end : R; sd_cells : Z; sd_ratio : R }.
(** One entry of "mesh": {direction, start, subDomains}. *)
Record axis := mkAxis { ax_dir : string; ax_start : R; ax_subs : list subdomain }.

(** [*it = *(it - 1) * r] for it = begin+1 .. end; misc.h:160. *)
Fixpoint geom (n : nat) (x r : R) : list R :=
  match n with O => [] | S n' => x :: geom n' (x * r) r end.

(** include/petibm/misc.h:148-163.  n < 0: resize throws; n = 0: dL[0] is out
    of bounds; pow(r,n) = 1: division by zero. *)
Definition stretchGrid (bg ed : R) (n : Z) (r : R) : res (list R) :=
  if (n <? 0)%Z then Err EXC
  else if (n =? 0)%Z then UB
  else if Req_EM_T (r ^ Z.to_nat n - 1) 0 then Err NONFINITE
  else Ok (geom (Z.to_nat n) ((ed - bg) * (r - 1) / (r ^ Z.to_nat n - 1)) r).

(** src/parser/parser.cpp:334-356. Result: (n, ed, dL). *)
Definition parseOneSubDomain (sub : subdomain) (bg : R) : res (Z * R * list R) :=
  let n := sd_cells sub in
  let ed := sd_end sub in
  let r := sd_ratio sub in
  if Rle_dec (Rabs (r - 1)) (/ 10 ^ 12) then
    if (n <? 0)%Z then Err EXC
    else Ok (n, ed, repeat ((ed - bg) / IZR n) (Z.to_nat n))
  else
    do dL <- stretchGrid bg ed n r; Ok (n, ed, dL).

(** src/parser/parser.cpp:298-332. State: (nTotal, ed, dL). *)
Definition parseSubDomains (subs : list subdomain) (bg : R) : res (Z * R * list R) :=
  foldM (fun st sub =>
           let '(nTotal, ed, dL) := st in
           do (nSub, ed', dLSub) <- parseOneSubDomain sub ed;
           Ok ((nTotal + nSub)%Z, ed', dL ++ dLSub))
        subs (0%Z, bg, []).

(** src/parser/parser.cpp:275-296. Result: (dir, bg, ed, nTotal, dL). *)
Definition parseOneAxis (ax : axis) : res (Z * R * R * Z * list R) :=
  do (nTotal, ed, dL) <- parseSubDomains (ax_subs ax) (ax_start ax);
  Ok (decode_dir (ax_dir ax), ax_start ax, ed, nTotal, dL).

(** min, max, n[3] and dLTrue[3] of the mesh object (arrays of size 3). *)
Record gridarr := mkGrid { g_min : list R; g_max : list R; g_n : list Z; g_dL : list (list R) }.

(** src/parser/parser.cpp:239-273. *)
Definition parseMesh (node : list axis) (g0 : gridarr) : res (Z * gridarr) :=
  do g <- foldM (fun g ax =>
           do (dir, bgAx, edAx, nAx, dLAx) <- parseOneAxis ax;
           do mn <- wr (g_min g) dir bgAx;
           do mx <- wr (g_max g) dir edAx;
           do nn <- wr (g_n g) dir nAx;
           do dl <- wr (g_dL g) dir dLAx;
           Ok (mkGrid mn mx nn dl)) node g0;
  Ok (lenZ node, g).

(** src/mesh/cartesianmesh.cpp:89-94: defaults (2D-friendly). *)
Definition grid0 : gridarr :=
  mkGrid [0; 0; 0] [1; 1; 1] [1%Z; 1%Z; 1%Z] [[1]; [1]; [1]].

(** * std:: algorithms *)

(** std::partial_sum with accumulator. *)
Fixpoint psum_acc (acc : R) (l : list R) : list R :=
  match l with [] => [] | x :: t => (acc + x) :: psum_acc (acc + x) t end.
(** std::partial_sum: the first element is copied. *)
Definition partial_sum (l : list R) : list R :=
  match l with [] => [] | x :: t => x :: psum_acc x t end.

Fixpoint adj_go (op : R -> R -> R) (prev : R) (l : list R) : list R :=
  match l with [] => [] | y :: t => op y prev :: adj_go op y t end.
(** std::adjacent_difference(first, last, out, op): out[0] = in[0],
    out[i] = op(in[i], in[i-1]). *)
Definition adjacent_difference (op : R -> R -> R) (l : list R) : list R :=
  match l with [] => [] | x :: t => x :: adj_go op x t end.

(** std::transform(l1, l2, out, f) over the shorter length. *)
Definition map2 (f : R -> R -> R) (l1 l2 : list R) : list R :=
  map (fun p => f (fst p) (snd p)) (combine l1 l2).

(** vector::back() / front(); on an empty vector undefined behaviour. *)
Definition back (l : list R) : res R := rd l (lenZ l - 1).
Definition front (l : list R) : res R := rd l 0.

(** * Coordinates of one axis *)

(** src/mesh/cartesianmesh.cpp:143-154. *)
Definition pressure_coord (mn : R) (dL3 : list R) : list R :=
  map2 (fun a b => a + mn - / 2 * b) (partial_sum dL3) dL3.

(** src/mesh/cartesianmesh.cpp:186-196 (resize zero-fills element 0). *)
Definition vertex_coord (mn : R) (dL3 : list R) : list R :=
  map (fun a => a + mn) (0 :: partial_sum dL3).

Definition halfsum (x y : R) : R := / 2 * (x + y).

(** src/mesh/cartesianmesh.cpp:224-281: velocity component along its own axis.
    Result: (n, dLTrue, coordTrue). The resize to n[3]+1 entries followed by
    adjacent_difference leaves the last entry to be set by back() = .... *)
Definition velocity_own (per : bool) (mn mx : R) (dL3 : list R)
  : res (Z * list R * list R) :=
  let n := (lenZ dL3 - 1)%Z in
  let coords := vertex_coord mn dL3 in
  let adj := adjacent_difference halfsum dL3 in
  if per then
    do d0 <- front dL3;
    do db <- back dL3;
    let b := halfsum d0 db in
    do l1 <- wr (adj ++ [b]) 0 b;
    do x1 <- rd l1 1;
    Ok ((n + 1)%Z, l1 ++ [x1], coords ++ [mx + d0])
  else
    do db <- back dL3;
    Ok (n, adj ++ [db], coords).

(** src/mesh/cartesianmesh.cpp:283-326: velocity component along another axis. *)
Definition velocity_other (per : bool) (mn mx : R) (dL3 : list R)
  : res (Z * list R * list R) :=
  let n := lenZ dL3 in
  let coords := pressure_coord mn dL3 in
  do d0 <- front dL3;
  do db <- back dL3;
  if per then
    Ok (n, db :: dL3 ++ [d0], (mn - db / 2) :: coords ++ [mx + d0 / 2])
  else
    Ok (n, d0 :: dL3 ++ [db], (mn - d0 / 2) :: coords ++ [mx + db / 2]).

(** A [PetscReal*] into a vector: the vector and the offset of element 0
    (include/petibm/type.h:153-154; cartesianmesh.cpp:157-160, 330-331). *)
Record arr := mkArr { a_data : list R; a_off : Z }.
Definition rdA (a : arr) (i : Z) : res R := rd (a_data a) (i + a_off a).

(** Grid data of one field along one direction. *)
Record fdir := mkFd { fd_n : Z; fd_dL : arr; fd_coord : arr }.

(** src/mesh/cartesianmesh.cpp:91-94 and 338-352: what remains in the unused
    direction (and unused component) of a 2D mesh. *)
Definition fdir_default : fdir := mkFd 1 (mkArr [1] 0) (mkArr [0] 0).

(** src/mesh/cartesianmesh.cpp:141-161. *)
Definition fdir_pressure (mn : R) (dL3 : list R) : fdir :=
  mkFd (lenZ dL3) (mkArr dL3 0) (mkArr (pressure_coord mn dL3) 0).

(** src/mesh/cartesianmesh.cpp:183-200 (no dL for the vertex mesh). *)
Definition fdir_vertex (mn : R) (dL3 : list R) : fdir :=
  mkFd (lenZ dL3 + 1) (mkArr [] 0) (mkArr (vertex_coord mn dL3) 0).

(** src/mesh/cartesianmesh.cpp:221-332: dL and coord point to element 1. *)
Definition fdir_velocity (own per : bool) (mn mx : R) (dL3 : list R) : res fdir :=
  do (n, dl, co) <- (if own then velocity_own per mn mx dL3 else velocity_other per mn mx dL3);
  Ok (mkFd n (mkArr dl 1) (mkArr co 1)).

(** * The mesh object (fields of petibm::mesh::MeshBase used below) *)
Record mesh := mkMesh {
  m_dim : Z;
  m_min : Z -> R;
  m_max : Z -> R;
  m_periodic : Z -> Z -> bool;      (* periodic[f][d] *)
  m_fd : Z -> Z -> fdir             (* field, direction *)
}.

Definition m_n (m : mesh) (f d : Z) : Z := fd_n (m_fd m f d).
Definition m_coord (m : mesh) (f d i : Z) : res R := rdA (fd_coord (m_fd m f d)) i.
Definition m_dL (m : mesh) (f d i : Z) : res R := rdA (fd_dL (m_fd m f d)) i.

(** Number of points of a field, and UN, pN (cartesianmesh.cpp:164, 335). *)
Definition m_npts (m : mesh) (f : Z) : Z := (m_n m f 0 * m_n m f 1 * m_n m f 2)%Z.
Definition m_pN (m : mesh) : Z := m_npts m 3.
Definition m_UN (m : mesh) : Z :=
  fold_left (fun s f => (s + m_npts m f)%Z) (zrange 0 (m_dim m)) 0%Z.

(** Per-axis creation for component [comp] in direction [dir]. *)
Definition mesh_fd (dim : Z) (mn mx : Z -> R) (per : Z -> Z -> bool) (dL3 : Z -> list R)
           (f d : Z) : res fdir :=
  if (d <? dim)%Z then
    if (f =? 3)%Z then Ok (fdir_pressure (mn d) (dL3 d))
    else if (f =? 4)%Z then Ok (fdir_vertex (mn d) (dL3 d))
    else if (f <? dim)%Z then fdir_velocity (f =? d)%Z (per f d) (mn d) (mx d) (dL3 d)
    else Ok fdir_default
  else Ok fdir_default.

Definition ok_or {A} (dflt : A) (x : res A) : A := match x with Ok a => a | _ => dflt end.

(** src/mesh/cartesianmesh.cpp:117-120: createPressureMesh, createVertexMesh,
    createVelocityMesh.  Undefined behaviour of any axis makes the whole
    creation undefined. *)
Definition createMeshArrays (dim : Z) (mn mx : Z -> R) (per : Z -> Z -> bool)
           (dL3 : Z -> list R) : res mesh :=
  let fds := map (fun p => mesh_fd dim mn mx per dL3 (fst p) (snd p))
                 (list_prod (zrange 0 5) (zrange 0 3)) in
  if forallb (fun r => match r with Ok _ => true | _ => false end) fds
  then Ok (mkMesh dim mn mx per
             (fun f d => ok_or fdir_default (mesh_fd dim mn mx per dL3 f d)))
  else UB.
