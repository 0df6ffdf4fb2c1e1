(** Model of the vorticity utility (applications/vorticity/main.cpp). *)
From Coq Require Import String.
From Verif Require Import Prelude ZSum RSum TypesModel GridModel IndexModel IndexSpec BoundaryModel BoundarySpec OperatorModel MatModel
  NSModel ConvModel NameModel DriverModel.
Local Open Scope R_scope.

(** vorticity/main.cpp:391, 430: number of components; 414, 463-467: names. *)
Definition n_vort (dim : Z) : Z := if (dim =? 2)%Z then 1%Z else 3%Z.
Definition vort_names (dim : Z) : list string := if (dim =? 2)%Z then ["wz"%string] else ["wx"; "wy"; "wz"]%string.

(** vorticity/main.cpp:386-389, 432-443: from which mesh the size (and the
    coordinates, 395-397, 448-460) of component c along direction d are taken:
    4 (vertices) or 3 (cells). *)
Definition vort_src (dim c d : Z) : Z :=
  if (dim =? 2)%Z then (if (d =? 0)%Z then 4 else if (d =? 1)%Z then 4 else 3)%Z
  else if (c =? 0)%Z then (if (d =? 0)%Z then 3 else if (d =? 1)%Z then 4 else 4)%Z
  else if (c =? 1)%Z then (if (d =? 0)%Z then 4 else if (d =? 1)%Z then 3 else 4)%Z
  else (if (d =? 0)%Z then 4 else if (d =? 1)%Z then 4 else 3)%Z.
Definition vort_n (m : mesh) (c d : Z) : Z := m_n m (vort_src (m_dim m) c d) d.
(** coord[c][d].assign(mesh->coord[.][d], ... + n[c][d]) *)
Definition vort_coord (m : mesh) (c d : Z) : res (list R) :=
  mapM (fun i => m_coord m (vort_src (m_dim m) c d) d i) (zrange 0 (vort_n m c d)).

(** DMDACreate2d / DMDACreate3d (vorticity/main.cpp:408-413, 475-480): the
    process grid of the mesh, default ownership ranges; PETSc refuses a process
    grid that is too fine. *)
Definition vort_dmdas (m : mesh) (D : dec) : res dec :=
  if forallb (fun c => forallb (fun d => (ds_np D d <=? vort_n m c d)%Z) (zrange 0 (m_dim m))) (zrange 0 (n_vort (m_dim m)))
  then Ok (default_dec (ds_np D) (vort_n m)) else Err PETSC_ERR_ARG_OUTOFRANGE.

(** vorticity/main.cpp:231-243: the arrays are [j][i]. *)
Definition vort2z (m : mesh) (q : flux) (i j k : Z) : res R :=
  do v1 <- at_ q 1 i (j - 1) k; do v0 <- at_ q 1 (i - 1) (j - 1) k;
  do x1 <- m_coord m 1 0 i; do x0 <- m_coord m 1 0 (i - 1);
  do u1 <- at_ q 0 (i - 1) j k; do u0 <- at_ q 0 (i - 1) (j - 1) k;
  do y1 <- m_coord m 0 1 j; do y0 <- m_coord m 0 1 (j - 1);
  Ok ((v1 - v0) / (x1 - x0) - (u1 - u0) / (y1 - y0)).

(** vorticity/main.cpp:301-318 *)
Definition vort3x (m : mesh) (q : flux) (i j k : Z) : res R :=
  do w1 <- at_ q 2 (i - 1) j (k - 1); do w0 <- at_ q 2 (i - 1) (j - 1) (k - 1);
  do y1 <- m_coord m 2 1 j; do y0 <- m_coord m 2 1 (j - 1);
  do v1 <- at_ q 1 (i - 1) (j - 1) k; do v0 <- at_ q 1 (i - 1) (j - 1) (k - 1);
  do z1 <- m_coord m 1 2 k; do z0 <- m_coord m 1 2 (k - 1);
  Ok ((w1 - w0) / (y1 - y0) - (v1 - v0) / (z1 - z0)).
(** vorticity/main.cpp:322-339 *)
Definition vort3y (m : mesh) (q : flux) (i j k : Z) : res R :=
  do u1 <- at_ q 0 (i - 1) (j - 1) k; do u0 <- at_ q 0 (i - 1) (j - 1) (k - 1);
  do z1 <- m_coord m 0 2 k; do z0 <- m_coord m 0 2 (k - 1);
  do w1 <- at_ q 2 i (j - 1) (k - 1); do w0 <- at_ q 2 (i - 1) (j - 1) (k - 1);
  do x1 <- m_coord m 2 0 i; do x0 <- m_coord m 2 0 (i - 1);
  Ok ((u1 - u0) / (z1 - z0) - (w1 - w0) / (x1 - x0)).
(** vorticity/main.cpp:343-358 *)
Definition vort3z (m : mesh) (q : flux) (i j k : Z) : res R :=
  do v1 <- at_ q 1 i (j - 1) k; do v0 <- at_ q 1 (i - 1) (j - 1) k;
  do x1 <- m_coord m 1 0 i; do x0 <- m_coord m 1 0 (i - 1);
  do u1 <- at_ q 0 (i - 1) j k; do u0 <- at_ q 0 (i - 1) (j - 1) k;
  do y1 <- m_coord m 0 1 j; do y0 <- m_coord m 0 1 (j - 1);
  Ok ((v1 - v0) / (x1 - x0) - (u1 - u0) / (y1 - y0)).
Definition vort_kernel (m : mesh) (c : Z) : flux -> Z -> Z -> Z -> res R :=
  if (m_dim m =? 2)%Z then vort2z m
  else if (c =? 0)%Z then vort3x m else if (c =? 1)%Z then vort3y m else vort3z m.

(** vorticity/main.cpp:206-209, 275-279: DMCreateLocalVector, zero entries. *)
Definition new_locals (m : mesh) (D : dec) (r : Z) : list (list R) :=
  map (fun f => map (fun _ => 0) (ghosted_points (m_dim m) D f r)) (zrange 0 (m_dim m)).
(** calculateVorticity2D / 3D (vorticity/main.cpp:184-370): scatter and copy the
    ghost values (the same calls as in the convection operator), then every rank
    computes the points it owns of every component. The result has one list per
    component, in the order of the DMDA vector. *)
Definition calcVorticity (m : mesh) (D VD : dec) (B : boundary) (x : vec) : res (list (list R)) :=
  do qs <- mapM (fun r => fill m D B x r (new_locals m D r)) (zrange 0 (nranks D));
  mapM (fun c =>
    do ys <- mapM (fun r => do q <- rd qs r;
                            mapM (fun p : pt => let '(i, j, k) := p in vort_kernel m c (flux_of m D r q) i j k) (local_points VD c r))
                  (zrange 0 (nranks D));
    Ok (concat ys)) (zrange 0 (n_vort (m_dim m))).

(** writeHDF5Vecs(comm, path, "/", names, w, FILE_MODE_APPEND)
    (vorticity/main.cpp:160-162, io.cpp:137-167): natural order. *)
Definition vort_data (m : mesh) (VD : dec) (c : Z) (w : list R) : list R :=
  map (fun k => match findpos Z.eqb k (petsc_order VD (vort_n m c) c) 0 with
                | Some i => match nthZ w i with Some v => v | None => 0 end | None => 0 end)
      (zrange 0 (npoints (vort_n m c))).
Definition vort_write (m : mesh) (VD : dec) (path : string) (ws : list (list R)) : list fsop :=
  [OpenApp path]
  ++ map (fun cw => Put path ("/" ++ snd (fst cw))%string (vort_data m VD (fst (fst cw)) (snd cw)))
         (combine (combine (zrange 0 (n_vort (m_dim m))) (vort_names (m_dim m))) ws)
  ++ [Close path].

(** The body of the loop of main (vorticity/main.cpp:134-166): read, ghost
    values, vorticity, append. The vectors and the boundary object live across
    iterations. *)
Definition vort_step (m : mesh) (D VD : dec) (out : string) (st : vec * vec * boundary * disk) (t : Z)
    : res (vec * vec * boundary * disk) :=
  let '(U, p, B, d) := st in
  let path := solution_path out t in
  do (U', p') <- solution_read m D path d U p;
  do B' <- bc_call m D (OpICs U') B;
  do ws <- calcVorticity m D VD B' U';
  Ok (U', p', B', run_ops (vort_write m VD path ws) d).
(** vorticity/main.cpp:97-109 with io.cpp:205-241, on rank 0: the coordinates of
    the components are appended to the grid file, one group for each. *)
Definition vort_grid (m : mesh) (path : string) (cs : list (list (list R))) : list fsop :=
  flat_map (fun nc => [OpenApp path]
                      ++ map (fun dc => Put path (coord_name (fst nc) (fst dc)) (snd dc)) (combine (zrange 0 3) (snd nc))
                      ++ [Close path]) (combine (vort_names (m_dim m)) cs).
(** main (vorticity/main.cpp:61-181): the step numbers are those of
    for (i = bg; i <= ed; i += step) ([xdmf_steps] has the same loop); None when
    the loop has not ended after [fuel] iterations. createSolution gives zero
    vectors. *)
Definition vort_main (fuel : nat) (m : mesh) (D : dec) types values (out : string) (bg ed step : Z) (d : disk) : res (option disk) :=
  do bl <- mapM (fun r => createBoundary m D r types values) (zrange 0 (nranks D));
  do VD <- vort_dmdas m D;
  do cs <- mapM (fun c => mapM (fun e => vort_coord m c e) (zrange 0 3)) (zrange 0 (n_vort (m_dim m)));
  match xdmf_steps fuel bg ed step with
  | None => Ok None
  | Some ts => do (U, p, B, d') <- foldM (vort_step m D VD out) ts
                 ((fun _ => 0), (fun _ => 0), (fun r => match nthZ bl r with Some b => b | None => [] end), run_ops (vort_grid m (grid_path out) cs) d);
               Ok (Some d')
  end.
