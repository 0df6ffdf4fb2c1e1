(** Model of the ghost-point machinery: src/misc/misc.cpp:85-267 and
    src/boundary/*.cpp. A rank is an integer 0 .. nranks-1; every rank has its
    own boundary object. *)
From Verif Require Import Prelude ZSum RSum TypesModel GridModel IndexModel.
Local Open Scope R_scope.

(** mesh->getPackedGlobalIndex(field, stencil, .) of the mesh object
    (cartesianmesh.cpp:781-795 forwards to 740-779; 592-620 uses periodic[0]).
    The build with the range check of lines 601-607 is modelled. *)
Definition gidx (m : mesh) (D : dec) (f : Z) (s : stencil) : res Z :=
  getPackedGlobalIndex true (m_dim m) (m_n m) (m_periodic m 0%Z) D f (si s) (sj s) (sk s).

(** mesh->getGlobalIndex(field, stencil, .), cartesianmesh.cpp:723-737. *)
Definition fidx (m : mesh) (D : dec) (f : Z) (s : stencil) : res Z :=
  getGlobalIndex true (m_dim m) (m_n m) (m_periodic m 0%Z) D f (si s) (sj s) (sk s).

(** src/misc/misc.cpp:199-224 *)
Definition getPerpendAxes (self : Z) : res (Z * Z) :=
  if (self =? 0)%Z then Ok (1, 2)%Z
  else if (self =? 1)%Z then Ok (0, 2)%Z
  else if (self =? 2)%Z then Ok (0, 1)%Z
  else Err PETSC_ERR_ARG_WRONG.

(** src/misc/misc.cpp:226-267. Result: (ghost, target). *)
Definition getGhostTargetStencil (n : Z -> Z) (loc p0 p1 : Z) : res (stencil * stencil) :=
  if (loc =? 0)%Z then Ok (mkSt p1 p0 (-1) 0, mkSt p1 p0 0 0)
  else if (loc =? 1)%Z then Ok (mkSt p1 p0 (n 0%Z) 0, mkSt p1 p0 (n 0%Z - 1) 0)
  else if (loc =? 2)%Z then Ok (mkSt p1 (-1) p0 0, mkSt p1 0 p0 0)
  else if (loc =? 3)%Z then Ok (mkSt p1 (n 1%Z) p0 0, mkSt p1 (n 1%Z - 1) p0 0)
  else if (loc =? 4)%Z then Ok (mkSt (-1) p1 p0 0, mkSt 0 p1 p0 0)
  else if (loc =? 5)%Z then Ok (mkSt (n 2%Z) p1 p0 0, mkSt (n 2%Z - 1) p1 p0 0)
  else Err PETSC_ERR_ARG_WRONG.

(** include/petibm/type.h:160-174 *)
Record ginfo := mkGI {
  gi_lcl : Z; gi_target : stencil; gi_tid : Z;
  gi_area : R; gi_dL : R; gi_a0 : R; gi_a1 : R; gi_value : R }.

(** std::map<MatStencil, T>::operator[] = v. The order in which std::map
    iterates (sorted by key) is not modelled: it only affects the order of
    floating-point additions. *)
Fixpoint mput {T} (l : list (stencil * T)) (k : stencil) (v : T) : list (stencil * T) :=
  match l with
  | [] => [(k, v)]
  | (k', v') :: t => if stencil_eqb k' k then (k, v) :: t else (k', v') :: mput t k v
  end.
Fixpoint mget {T} (l : list (stencil * T)) (k : stencil) : option T :=
  match l with
  | [] => None
  | (k', v') :: t => if stencil_eqb k' k then Some v' else mget t k
  end.

(** src/misc/misc.cpp:129-197, executed by rank r. *)
Definition getGhostPointList (m : mesh) (D : dec) (r f loc : Z) : res (list (stencil * ginfo)) :=
  let axis := (loc / 2)%Z in
  do (pa0, pa1) <- getPerpendAxes axis;
  let n := m_n m f in
  foldM (fun pts b =>
    foldM (fun pts a =>
      do (ghost, target) <- getGhostTargetStencil n loc a b;
      do targetId <- gidx m D f target;
      do ghostId <- getLocalIndex (m_dim m) D f r ghost;
      do w0 <- m_dL m f pa0 a;
      do w1 <- m_dL m f pa1 b;
      do d <- (if (loc =? 1)%Z || (loc =? 3)%Z || (loc =? 5)%Z
               then do x <- m_coord m f axis (n axis); do y <- m_coord m f axis (n axis - 1)%Z; Ok (x - y)
               else do x <- m_coord m f axis 0; do y <- m_coord m f axis (-1); Ok (x - y));
      Ok (mput pts ghost (mkGI ghostId target targetId (w0 * w1) d 0 0 0)))
      (zrange (d_bg D f pa0 r) (d_ed D f pa0 r)) pts)
    (zrange (d_bg D f pa1 r) (d_ed D f pa1 r)) [].

(** src/misc/misc.cpp:85-127: DMDAGetProcessorSubset gives a communicator to
    the ranks whose slab contains the given grid plane. *)
Definition checkBoundaryProc (n : Z -> Z) (D : dec) (r f loc : Z) : bool :=
  let d := (loc / 2)%Z in
  let gp := if (loc mod 2 =? 0)%Z then 0%Z else (n d - 1)%Z in
  (d_bg D f d r <=? gp)%Z && (gp <? d_ed D f d r)%Z.

(** include/petibm/singleboundary.h:30-66 *)
Record sbd := mkSB {
  sb_type : bctype; sb_loc : Z; sb_field : Z; sb_value : R; sb_normal : R;
  sb_on : bool; sb_points : list (stencil * ginfo) }.

Definition normal_of (loc : Z) : R := if (loc mod 2 =? 0)%Z then -1 else 1.

(** src/boundary/singleboundarybase.cpp:55-105 (init) called by the
    constructors. The constructors drop the error code of init (see C45); here
    it is propagated. *)
Definition sb_init (m : mesh) (D : dec) (r loc f : Z) (ty : bctype) (value : R) : res sbd :=
  let on := checkBoundaryProc (m_n m f) D r f loc in
  do pts <- (if on then getGhostPointList m D r f loc else Ok []);
  Ok (mkSB ty loc f value (normal_of loc) on pts).

(** src/boundary/singleboundary.cpp:19-53. The periodic constructor
    (singleboundaryperiodic.cpp:14-45) never sets onThisProc; it is false here,
    which is immaterial because the point list is empty. *)
Definition createSingleBoundary (m : mesh) (D : dec) (r loc f : Z) (value : R) (ty : bctype) : res sbd :=
  match ty with
  | NOBC => Err PETSC_ERR_ARG_WRONG
  | PERIODIC => Ok (mkSB PERIODIC loc f value (normal_of loc) false [])
  | DIRICHLET => sb_init m D r loc f DIRICHLET value
  | NEUMANN => sb_init m D r loc f NEUMANN value
  | CONVECTIVE => sb_init m D r loc f CONVECTIVE value
  end.

(** src/boundary/boundarysimple.cpp:25-64: bds[f][b] for f < dim, b < 2 dim, of
    rank r, from the parsed tables. *)
Definition createBoundary (m : mesh) (D : dec) (r : Z) (types : Z -> Z -> bctype) (values : Z -> Z -> R)
  : res (list (list sbd)) :=
  mapM (fun f => mapM (fun b => createSingleBoundary m D r b f (values f b) (types f b))
                      (zrange 0 (m_dim m * 2)))
       (zrange 0 (m_dim m)).

(** * Kernels *)
Definition set_eq (p : ginfo) (a0 a1 : R) : ginfo :=
  mkGI (gi_lcl p) (gi_target p) (gi_tid p) (gi_area p) (gi_dL p) a0 a1 (gi_value p).
Definition set_value (p : ginfo) (v : R) : ginfo :=
  mkGI (gi_lcl p) (gi_target p) (gi_tid p) (gi_area p) (gi_dL p) (gi_a0 p) (gi_a1 p) v.

(** singleboundaryconvective.cpp:12-25 *)
Definition kernelConvectiveDiffDir (tv dt normal value : R) (p : ginfo) : ginfo :=
  set_eq p (-1) (gi_value p + tv - 2 * normal * dt * value * (gi_value p - tv) / gi_dL p).
(** singleboundaryconvective.cpp:27-39 *)
Definition kernelConvectiveSameDir (tv dt normal value : R) (p : ginfo) : ginfo :=
  set_eq p 0 (gi_value p - normal * dt * value * (gi_value p - tv) / gi_dL p).
(** singleboundaryconvective.cpp:47-58: choice of the kernel. *)
Definition kernelConvective (sb : sbd) (tv dt : R) (p : ginfo) : ginfo :=
  if (sb_loc sb / 2 =? sb_field sb)%Z
  then kernelConvectiveSameDir tv dt (sb_normal sb) (sb_value sb) p
  else kernelConvectiveDiffDir tv dt (sb_normal sb) (sb_value sb) p.

(** setGhostICsKernel of the four classes: singleboundarydirichlet.cpp:22-47,
    singleboundaryneumann.cpp:22-33, singleboundaryconvective.cpp:69-85,
    singleboundaryperiodic.cpp:47-53. *)
Definition setGhostICsKernel (sb : sbd) (tv : R) (p : ginfo) : ginfo :=
  match sb_type sb with
  | DIRICHLET =>
      let p1 := if (sb_loc sb / 2 =? sb_field sb)%Z then set_eq p 0 (sb_value sb)
                else set_eq p (-1) (2 * sb_value sb) in
      set_value p1 (gi_a0 p1 * tv + gi_a1 p1)
  | NEUMANN =>
      let p1 := set_eq p 1 (sb_normal sb * gi_dL p * sb_value sb) in
      set_value p1 (gi_a0 p1 * tv + gi_a1 p1)
  | CONVECTIVE => kernelConvective sb tv 0 (set_value p tv)
  | _ => p
  end.

(** updateEqsKernel: only the convective class does something
    (singleboundaryconvective.cpp:87-97). *)
Definition updateEqsKernel (sb : sbd) (tv dt : R) (p : ginfo) : ginfo :=
  match sb_type sb with
  | CONVECTIVE => kernelConvective sb tv dt p
  | _ => p
  end.

(** VecGetValues on the composite velocity vector: only entries stored on rank
    r may be read (PETSc: "Can only get local values"). *)
Definition pack_start (m : mesh) (D : dec) (r : Z) : Z := offsetsPackAllProcs (m_dim m) D r.
Definition vec_get (m : mesh) (D : dec) (r : Z) (vec : Z -> R) (id : Z) : res R :=
  if ((pack_start m D r <=? id) && (id <? pack_start m D r + UPackNLocalAllProcs (m_dim m) D r))%Z
  then Ok (vec id) else Err PETSC_ERR_ARG_WRONG.

(** The loop over [points] shared by setGhostICs, updateEqs and
    updateGhostValues (singleboundarybase.cpp:107-163). *)
Definition sb_map (m : mesh) (D : dec) (r : Z) (vec : Z -> R) (k : R -> ginfo -> ginfo) (sb : sbd) : res sbd :=
  do pts <- mapM (fun kp => do tv <- vec_get m D r vec (gi_tid (snd kp)); Ok (fst kp, k tv (snd kp)))
                 (sb_points sb);
  Ok (mkSB (sb_type sb) (sb_loc sb) (sb_field sb) (sb_value sb) (sb_normal sb) (sb_on sb) pts).

(** singleboundarybase.cpp:107-124 *)
Definition setGhostICs m D r vec sb := sb_map m D r vec (setGhostICsKernel sb) sb.
(** singleboundarybase.cpp:126-144 *)
Definition updateEqs m D r vec dt sb := sb_map m D r vec (fun tv p => updateEqsKernel sb tv dt p) sb.
(** singleboundarybase.cpp:146-163 *)
Definition updateGhostValues m D r vec sb :=
  sb_map m D r vec (fun tv p => set_value p (gi_a0 p * tv + gi_a1 p)) sb.

(** A call made by the solver on a boundary. *)
Inductive bop :=
| OpICs (vec : Z -> R)
| OpEqs (vec : Z -> R) (dt : R)
| OpVals (vec : Z -> R).
Definition run_bop (m : mesh) (D : dec) (r : Z) (sb : sbd) (o : bop) : res sbd :=
  match o with
  | OpICs v => setGhostICs m D r v sb
  | OpEqs v dt => updateEqs m D r v dt sb
  | OpVals v => updateGhostValues m D r v sb
  end.
Definition run_bops m D r (ops : list bop) (sb : sbd) : res sbd := foldM (run_bop m D r) ops sb.

(** boundarysimple.cpp:66-126: one call on the whole boundary object of a
    rank, and a sequence of calls. *)
Definition run_boundary_op (m : mesh) (D : dec) (r : Z) (b : list (list sbd)) (o : bop) : res (list (list sbd)) :=
  mapM (mapM (fun sb => run_bop m D r sb o)) b.
Definition run_boundary (m : mesh) (D : dec) (r : Z) (ops : list bop) (b : list (list sbd)) : res (list (list sbd)) :=
  foldM (run_boundary_op m D r) ops b.
