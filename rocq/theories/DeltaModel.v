(** Model of the regularised delta functions and of the operator built from
    them: src/misc/delta.cpp and src/operators/createdelta.cpp. *)
From Coq Require Import String.
From Verif Require Import Prelude ZSum RSum TypesModel GridModel IndexModel BoundaryModel OperatorModel MatModel BodyModel.
Local Open Scope R_scope.

(** A floating-point result that is not a number (square root of a negative
    number, division by zero). The C++ code would go on with NaN or infinity;
    the model stops there. *)
Definition NOT_FINITE : Z := (-2)%Z.
Definition csqrt (x : R) : res R := if Rlt_dec x 0 then Err NOT_FINITE else Ok (sqrt x).
Definition cdiv (a b : R) : res R := if Req_EM_T b 0 then Err NOT_FINITE else Ok (a / b).

(** src/misc/delta.cpp:17-28. *)
Definition Roma_et_al_1999 (r dr : R) : res R :=
  do x <- cdiv (Rabs r) dr;
  if Rlt_dec (15/10) x then Ok 0
  else if Rlt_dec (5/10) x then
    if Rle_dec x (15/10) then
      do q <- csqrt (- 3 * (1 - x) * (1 - x) + 1); cdiv (5 - 3 * x - q) (6 * dr)
    else do q <- csqrt (- 3 * x * x + 1); cdiv (1 + q) (3 * dr)
  else do q <- csqrt (- 3 * x * x + 1); cdiv (1 + q) (3 * dr).

(** src/misc/delta.cpp:30-41. *)
Definition Peskin_2002 (r dr : R) : res R :=
  do x <- cdiv (Rabs r) dr;
  if Rle_dec 0 x then
    if Rle_dec x 1 then do q <- csqrt (1 + 4 * x - 4 * x * x); cdiv (3 - 2 * x + q) (8 * dr)
    else if Rle_dec 1 x then
      if Rle_dec x 2 then do q <- csqrt (- 7 + 12 * x - 4 * x * x); cdiv (5 - 2 * x - q) (8 * dr)
      else Ok 0
    else Ok 0
  else if Rle_dec 1 x then
    if Rle_dec x 2 then do q <- csqrt (- 7 + 12 * x - 4 * x * x); cdiv (5 - 2 * x - q) (8 * dr)
    else Ok 0
  else Ok 0.

Definition kernel : Type := R -> R -> res R.

(** src/misc/delta.cpp:43-64: the kernel and its size. *)
Definition getKernel (name : string) : res (kernel * Z) :=
  if (name =? "ROMA_ET_AL_1999")%string then Ok (Roma_et_al_1999, 2%Z)
  else if (name =? "PESKIN_2002")%string then Ok (Peskin_2002, 3%Z)
  else Err PETSC_ERR_ARG_UNKNOWN_TYPE.

(** src/misc/delta.cpp:66-76. *)
Definition delta (source target widths : list R) (K : kernel) : res R :=
  foldM (fun phi d => do s <- rd source d; do t <- rd target d; do w <- rd widths d;
                      do v <- K (s - t) w; Ok (phi * v)) (zrange 0 (lenZ widths)) 1.

(** src/operators/createdelta.cpp:188-213: the indices and the coordinates of
    the points searched along direction d around index [i0]. *)
Definition neighbours (m : mesh) (f d i0 : Z) (periodic : bool) (window : Z) : res (list (Z * R)) :=
  foldM (fun acc s =>
    if (0 <=? s)%Z && (s <? m_n m f d)%Z then do c <- m_coord m f d s; Ok (acc ++ [(s, c)])
    else if periodic then
      let L := m_max m d - m_min m d in
      if (s <? 0)%Z then do c <- m_coord m f d s; Ok (acc ++ [((s + m_n m f d)%Z, c - L)])
      else do c <- m_coord m f d s; Ok (acc ++ [((s - m_n m f d)%Z, c + L)])
    else Ok acc) (zrange (i0 - window) (i0 + window + 1)) [].
(** src/operators/createdelta.cpp:178-215: all directions. *)
Definition getEulerianNeighbors (m : mesh) (f : Z) (IJK : list Z) (periodic : list bool) (window : Z)
  : res (list (list (Z * R))) :=
  mapM (fun d => do i0 <- rd IJK d; do p <- rd periodic d; neighbours m f d i0 p window) (zrange 0 (m_dim m)).

(** src/operators/createdelta.cpp:91-158: one row of the matrix. *)
Definition delta_row (m : mesh) (D : dec) (K : kernel) (window : Z) (periodic : list bool)
    (widths : list R) (IJK : list Z) (XYZ : list R) (dof row : Z) : res (list mev) :=
  do nb <- getEulerianNeighbors m dof IJK periodic window;
  if (m_dim m =? 3)%Z then
    do n0 <- rd nb 0; do n1 <- rd nb 1; do n2 <- rd nb 2;
    foldM (fun log kz => foldM (fun log jy => foldM (fun log ix =>
        do col <- gidx m D dof (mkSt (fst kz) (fst jy) (fst ix) 0);
        do v <- delta XYZ [snd ix; snd jy; snd kz] widths K;
        Ok (log ++ [mkEv row col v INSERT_VALUES])) n0 log) n1 log) n2 []
  else if (m_dim m =? 2)%Z then
    do n0 <- rd nb 0; do n1 <- rd nb 1;
    foldM (fun log jy => foldM (fun log ix =>
        do col <- gidx m D dof (mkSt 0 (fst jy) (fst ix) 0);
        do v <- delta XYZ [snd ix; snd jy] widths K;
        Ok (log ++ [mkEv row col v INSERT_VALUES])) n0 log) n1 []
  else Err PETSC_ERR_ARG_WRONG.

(** src/operators/createdelta.cpp:44-51: the periodic flags; bds[0][d] is the
    boundary number d of the x-velocity. *)
Definition delta_flags (m : mesh) (bds : list (list sbd)) : res (list bool) :=
  mapM (fun d => do row <- rd bds 0; do sb <- rd row d; Ok (bctype_eqb (sb_type sb) PERIODIC)) (zrange 0 (m_dim m)).

(** src/operators/createdelta.cpp:69-78: the widths for one body. *)
Definition delta_widths (m : mesh) (meshIdx : list (list Z)) : res (list R) :=
  mapM (fun d => do first <- rd meshIdx 0; do i0 <- rd first d; m_dL m 0 d i0) (zrange 0 (m_dim m)).

(** src/operators/createdelta.cpp:34-176 on rank r. [bodies]: the distribution
    and the coordinates of every body; [mi]: meshIdx of the local points. *)
Definition createDelta_rank (m : mesh) (D : dec) (bds : list (list sbd)) (K : kernel) (window : Z)
    (bodies : list (body * list (list R))) (mi : list (list (list Z))) (r : Z) : res (list mev) :=
  do periodic <- delta_flags m bds;
  foldM (fun log b =>
    do bc <- rd bodies b; do mib <- rd mi b;
    do widths <- delta_widths m mib;
    foldM (fun log i =>
      do IJK <- rd mib i;
      do XYZ <- rd (snd bc) (b_bg (fst bc) r + i)%Z;
      foldM (fun log dof =>
        do row <- bp_getPackedGlobalIndex (nranks D) (m_dim m) (map fst bodies) b (b_bg (fst bc) r + i)%Z dof;
        do evs <- delta_row m D K window periodic widths IJK XYZ dof row;
        Ok (log ++ evs)) (zrange 0 (m_dim m)) log)
      (zrange 0 (b_l (fst bc) r)) log)
    (zrange 0 (lenZ bodies)) [].

(** bodies->updateMeshIdx followed by createDelta (ibpm.cpp:142-150,
    decoupledibpm.cpp:71 and 170-177) on every rank: the matrix. *)
Definition createDelta (m : mesh) (D : dec) (B : boundary) (K : kernel) (window : Z)
    (bodies : list (body * list (list R))) : res (list mev) :=
  do logs <- mapM (fun r => do mi <- bp_updateMeshIdx m (m_dim m) bodies r;
                            createDelta_rank m D (B r) K window bodies mi r) (zrange 0 (nranks D));
  Ok (concat logs).

(** MatTranspose *)
Definition mtranspose (A : mat) : mat := fun i j => A j i.

(** applications/ibpm/ibpm.cpp:132-165 and
    applications/decoupledibpm/decoupledibpm.cpp:160-192: the interpolation
    operator E = Delta R MHead and the spreading operator H = Delta^T (the
    coupled solver stores -H). *)
Definition ib_operators (m : mesh) (D : dec) (B : boundary) (name : string) (bodies : list (body * list (list R))) : res (mat * mat) :=
  do Rm <- createR m D;
  do Mh <- createMHead m D;
  do ks <- getKernel name;
  do dl <- createDelta m D B (fst ks) (snd ks) bodies;
  let E0 := entry dl in
  let H := mtranspose E0 in
  let E1 := mdscale vones (mdiag (entry Rm)) E0 in
  let E2 := mdscale vones (mdiag (entry Mh)) E1 in
  Ok (E2, H).
