(** Model of the probes (src/misc/probes.cpp), of the linear interpolation
    (src/misc/lininterp.cpp), of the point location
    (cartesianmesh.cpp:825-841) and of the time-integration schemes
    (src/timeintegration/timeintegration.cpp). *)
From Coq Require Import String.
From Verif Require Import Prelude ZSum RSum TypesModel GridModel IndexModel BoundaryModel OperatorModel IndexSpec BoundarySpec OperatorSpec MatModel ConvModel.
From Verif Require Import DeltaModel.
Local Open Scope R_scope.

(** * Time-integration schemes *)

(** include/petibm/timeintegration.h:44-193 *)
Record scheme := mkScheme { sc_implicit : R; sc_nexplicit : Z; sc_explicit : list R }.
Definition Euler_Explicit := mkScheme 0 1 [1].
Definition Euler_Implicit := mkScheme 1 0 [].
Definition Adams_Bashforth_2 := mkScheme 0 2 [15/10; - (5/10)].
Definition Crank_Nicolson := mkScheme (5/10) 1 [5/10].

(** timeintegration.cpp:40-83. The YAML node is reduced to its "parameters"
    map from keys to strings, None when the key is absent. *)
Definition createTimeIntegration (name : string) (parameters : option (string -> option string)) : res scheme :=
  match parameters with
  | None => Err PETSC_ERR_ARG_OUTOFRANGE
  | Some node =>
    match node name with
    | None => Err PETSC_ERR_ARG_OUTOFRANGE
    | Some s =>
      if (s =? "EULER_EXPLICIT")%string then Ok Euler_Explicit
      else if (s =? "EULER_IMPLICIT")%string then Ok Euler_Implicit
      else if (s =? "ADAMS_BASHFORTH_2")%string then Ok Adams_Bashforth_2
      else if (s =? "CRANK_NICOLSON")%string then Ok Crank_Nicolson
      else Err PETSC_ERR_ARG_OUTOFRANGE
    end
  end.

(** * Searches on a gridline *)

(** std::vector line(coord[f][d], coord[f][d] + n[f][d]) (lininterp.cpp:102,
    probes.cpp:250). *)
Definition gridline (m : mesh) (f d : Z) : res (list R) := mapM (m_coord m f d) (zrange 0 (m_n m f d)).
(** std::lower_bound and std::upper_bound on a sorted range: position of the
    first element that is not less than / greater than the value. *)
Fixpoint lower_boundR (l : list R) (v : R) : Z :=
  match l with [] => 0%Z | x :: t => if Rlt_dec x v then (1 + lower_boundR t v)%Z else 0%Z end.
Fixpoint upper_boundR (l : list R) (v : R) : Z :=
  match l with [] => 0%Z | x :: t => if Rlt_dec v x then 0%Z else (1 + upper_boundR t v)%Z end.

(** * Point location: cartesianmesh.cpp:825-841 on rank r *)
Fixpoint on_dirs (m : mesh) (D : dec) (r f : Z) (point : list R) (ds : list Z) : res bool :=
  match ds with
  | [] => Ok true
  | d :: t =>
    do x <- rd point d;
    do c0 <- m_coord m f d (d_bg D f d r);
    if Rlt_dec x c0 then Ok false
    else do c1 <- m_coord m f d (d_ed D f d r);
         if Rle_dec c1 x then Ok false else on_dirs m D r f point t
  end.
Definition isPointOnLocalProc (m : mesh) (D : dec) (r f : Z) (point : list R) : res bool :=
  on_dirs m D r f point (zrange 0 (m_dim m)).

(** * Linear interpolation: lininterp.cpp *)
Record linterp := mkInterp { li_target : list R; li_idx : list Z; li_bl : list R; li_tr : list R }.

(** lininterp.cpp:94-109 *)
Definition getBLGridlineIndices (m : mesh) (f : Z) (target : list R) : res (list Z) :=
  mapM (fun d => do line <- gridline m f d; do x <- rd target d; Ok (lower_boundR line x - 1)%Z) (zrange 0 (m_dim m)).
(** lininterp.cpp:112-128 *)
Definition getBoxCoords (m : mesh) (f : Z) (target : list R) : res linterp :=
  do idx <- getBLGridlineIndices m f target;
  do bl <- mapM (fun d => do i <- rd idx d; m_coord m f d i) (zrange 0 (m_dim m));
  do tr <- mapM (fun d => do i <- rd idx d; m_coord m f d (i + 1)) (zrange 0 (m_dim m));
  Ok (mkInterp target idx bl tr).
(** lininterp.cpp:16-38, 70-91 and the constructors *)
Definition createLinInterp (m : mesh) (f : Z) (point : list R) : res linterp :=
  if (m_dim m =? 2)%Z || (m_dim m =? 3)%Z then getBoxCoords m f point else Err PETSC_ERR_ARG_UNKNOWN_TYPE.

Definition pt_eqb (a b : pt) : bool :=
  let '(i, j, k) := a in let '(i', j', k') := b in ((i =? i') && (j =? j') && (k =? k'))%Z.
(** a[k][j][i] of DMDAVecGetArrayRead on a ghosted local vector *)
Definition local_at (dim : Z) (D : dec) (f r : Z) (a : list R) (i j k : Z) : res R :=
  match findpos pt_eqb (i, j, k) (ghosted_points dim D f r) 0 with Some id => rd a id | None => UB end.

(** lininterp.cpp:187-209 *)
Definition interpolate2 (D : dec) (f r : Z) (L : linterp) (vec : list R) : res R :=
  do io <- rd (li_idx L) 0; do jo <- rd (li_idx L) 1;
  do x <- rd (li_target L) 0; do y <- rd (li_target L) 1;
  do x0 <- rd (li_bl L) 0; do y0 <- rd (li_bl L) 1;
  do x1 <- rd (li_tr L) 0; do y1 <- rd (li_tr L) 1;
  do xd <- cdiv (x - x0) (x1 - x0);
  do yd <- cdiv (y - y0) (y1 - y0);
  let a := fun j i => local_at 2 D f r vec i j 0 in
  do a00 <- a jo io; do a01 <- a jo (io + 1)%Z;
  do a10 <- a (jo + 1)%Z io; do a11 <- a (jo + 1)%Z (io + 1)%Z;
  let c0 := (1 - xd) * a00 + xd * a01 in
  let c1 := (1 - xd) * a10 + xd * a11 in
  Ok ((1 - yd) * c0 + yd * c1).

(** lininterp.cpp:144-171 *)
Definition interpolate3 (D : dec) (f r : Z) (L : linterp) (vec : list R) : res R :=
  do io <- rd (li_idx L) 0; do jo <- rd (li_idx L) 1; do ko <- rd (li_idx L) 2;
  do x <- rd (li_target L) 0; do y <- rd (li_target L) 1; do z <- rd (li_target L) 2;
  do x0 <- rd (li_bl L) 0; do y0 <- rd (li_bl L) 1; do z0 <- rd (li_bl L) 2;
  do x1 <- rd (li_tr L) 0; do y1 <- rd (li_tr L) 1; do z1 <- rd (li_tr L) 2;
  do xd <- cdiv (x - x0) (x1 - x0);
  do yd <- cdiv (y - y0) (y1 - y0);
  do zd <- cdiv (z - z0) (z1 - z0);
  let a := fun k j i => local_at 3 D f r vec i j k in
  do a000 <- a ko jo io; do a001 <- a ko jo (io + 1)%Z;
  do a010 <- a ko (jo + 1)%Z io; do a011 <- a ko (jo + 1)%Z (io + 1)%Z;
  do a100 <- a (ko + 1)%Z jo io; do a101 <- a (ko + 1)%Z jo (io + 1)%Z;
  do a110 <- a (ko + 1)%Z (jo + 1)%Z io; do a111 <- a (ko + 1)%Z (jo + 1)%Z (io + 1)%Z;
  let c00 := (1 - xd) * a000 + xd * a001 in
  let c01 := (1 - xd) * a010 + xd * a011 in
  let c10 := (1 - xd) * a100 + xd * a101 in
  let c11 := (1 - xd) * a110 + xd * a111 in
  let c0 := (1 - yd) * c00 + yd * c01 in
  let c1 := (1 - yd) * c10 + yd * c11 in
  Ok ((1 - zd) * c0 + zd * c1).

Definition interpolate (dim : Z) (D : dec) (f r : Z) (L : linterp) (vec : list R) : res R :=
  if (dim =? 2)%Z then interpolate2 D f r L vec else interpolate3 D f r L vec.

(** * Vectors *)

(** DMCompositeGetAccessArray (probes.cpp:127-129): the entries of component f
    of the composite vector, in storage order. *)
Definition vel_access (m : mesh) (D : dec) (U : vec) (f : Z) : vec :=
  vec_of (map (fun gp => U (fst gp))
              (filter (fun gp => (fst (snd gp) =? f)%Z)
                      (combine (zrange 0 (lenZ (packed_layout (m_dim m) D))) (packed_layout (m_dim m) D)))).

(** DMGlobalToLocal (probes.cpp:675-676) of a vector of field f, on rank r; the
    DMDA has a box stencil of width 1 and periodic or ghosted boundaries
    (cartesianmesh.cpp:501-519). Ghosts outside of a non-periodic boundary keep
    their contents. *)
Definition globalToLocal (m : mesh) (D : dec) (v : vec) (r f : Z) (old : list R) : res (list R) :=
  mapM (fun iq =>
    let '(id, q) := iq in
    if has_image (m_n m f) (fun d => m_periodic m d d) q
    then match findpos pt_eqb (image (m_n m f) q) (field_layout D f) 0 with
         | Some g => Ok (v g) | None => UB end
    else rd old id)
    (combine (zrange 0 (lenZ (ghosted_points (m_dim m) D f r))) (ghosted_points (m_dim m) D f r)).

(** * Point probe: probes.cpp:607-687, on rank r *)
Record pprobe := mkPP { pp_interp : option linterp; pp_svec : list R }.

(** probes.cpp:607-645. [loc] are the coordinates given under "loc"; the third
    one stays 0 in 2D. *)
Definition probePointInit (m : mesh) (D : dec) (r f : Z) (loc : Z -> R) : res pprobe :=
  let point := map (fun d => if (d <? m_dim m)%Z then loc d else 0) (zrange 0 3) in
  do on <- isPointOnLocalProc m D r f point;
  do it <- (if on : bool then do L <- createLinInterp m f point; Ok (Some L) else Ok None);
  Ok (mkPP it (map (fun _ => 0) (ghosted_points (m_dim m) D f r))).

(** probes.cpp:665-687: the line written, if any. *)
Definition probePointMonitorVec (m : mesh) (D : dec) (r f : Z) (P : pprobe) (v : vec) (t : R) : res (pprobe * list (R * R)) :=
  do sv <- globalToLocal m D v r f (pp_svec P);
  do out <- match pp_interp P with
            | Some L => do x <- interpolate (m_dim m) D f r L sv; Ok [(t, x)]
            | None => Ok []
            end;
  Ok (mkPP (pp_interp P) sv, out).

(** * Volume probe *)

(** probes.cpp:240-264: startIdxDir and nPtsDir (three entries; probes.cpp:203-204). *)
Definition getInfo (m : mesh) (f : Z) (atol : R) (lo hi : Z -> R) : res (list Z * list Z) :=
  do se <- mapM (fun d =>
      if (d <? m_dim m)%Z then
        do line <- gridline m f d;
        let low := lower_boundR line (lo d - atol) in
        let up := upper_boundR line (hi d + atol) in
        Ok (low, (up - low)%Z)
      else Ok (0%Z, 1%Z)) (zrange 0 3);
  Ok (map fst se, map snd se).
Definition getNPts (np : list Z) : Z := fold_left Z.mul np 1%Z.

(** probes.cpp:313-329. A negative size makes [reserve] throw
    std::length_error. *)
Definition createGrid (m : mesh) (f : Z) (st np : list Z) : res (list (list R)) :=
  mapM (fun d =>
    do s <- rd st d; do n <- rd np d;
    if (n <? 0)%Z then Err EXC else mapM (m_coord m f d) (zrange s (s + n))) (zrange 0 (m_dim m)).

(** probes.cpp:267-309 on rank r: the natural indices, and the same in PETSc
    ordering. *)
Definition in_sub (st np : list Z) (p : pt) : res bool :=
  let '(i, j, k) := p in
  do s0 <- rd st 0; do s1 <- rd st 1; do s2 <- rd st 2;
  do n0 <- rd np 0; do n1 <- rd np 1; do n2 <- rd np 2;
  Ok ((i >=? s0) && (i <? s0 + n0) && (j >=? s1) && (j <? s1 + n1) && (k >=? s2) && (k <? s2 + n2))%Z.
Definition createIS (m : mesh) (D : dec) (r f : Z) (st np : list Z) : res (list Z * list Z) :=
  let nPts := getNPts np in
  if (nPts <? 0)%Z then Err EXC else
  do ic <- foldM (fun ic (p : pt) =>
      let '(indices, count) := ic in let '(i, j, k) := p in
      do b <- in_sub st np p;
      if b : bool then
        do indices' <- wr indices count (k * (m_n m f 1 * m_n m f 0) + j * m_n m f 0 + i)%Z;
        Ok (indices', (count + 1)%Z)
      else Ok (indices, count)) (local_points D f r) (repeat 0%Z (Z.to_nat nPts), 0%Z);
  let nat := firstn (Z.to_nat (snd ic)) (fst ic) in
  Ok (nat, map (ao_apply D (m_n m f) f) nat).

Record vprobe := mkVP { vp_grid : list (list R); vp_natural : list (list Z); vp_petsc : list (list Z) }.
(** probes.cpp:164-222 on all ranks. The box is read from the YAML node into a
    3 x 2 table that is 0 where the node has no entry. *)
Definition probeVolumeInit (m : mesh) (D : dec) (f : Z) (atol : R) (lo hi : Z -> R) : res vprobe :=
  do (st, np) <- getInfo m f atol lo hi;
  do grid <- createGrid m f st np;
  do is <- mapM (fun r => createIS m D r f st np) (zrange 0 (nranks D));
  Ok (mkVP grid (map fst is) (map snd is)).

(** VecGetSubVector(fvec, isPetsc) (probes.cpp:500): the entries in the order of
    the index set, rank after rank. An index out of range is an error. *)
Definition subVector (m : mesh) (f : Z) (P : vprobe) (v : vec) : res (list R) :=
  mapM (fun g => if (0 <=? g)%Z && (g <? npoints (m_n m f))%Z then Ok (v g) else Err PETSC_ERR_ARG_OUTOFRANGE)
       (concat (vp_petsc P)).

(** A block of data written by writeVec (probes.cpp:529-594): the time, the
    accumulated count (written only when it is not 0) and the values. *)
Record precord := mkRec { pr_time : R; pr_count : option Z; pr_data : list R }.
(** Accumulator of a volume probe: dvec (None before the first sample) and
    count. *)
Record vacc := mkAcc { va_dvec : option (list R); va_count : Z }.
Definition vacc0 : vacc := mkAcc None 0.
Definition addl (a b : list R) : list R := map (fun ab => fst ab + snd ab) (combine a b).
Definition write_vec (count : Z) (x : list R) (t : R) : precord :=
  mkRec t (if (count =? 0)%Z then None else Some count) x.

(** probes.cpp:489-526 *)
Definition probeVolumeMonitorVec (n_sum : Z) (A : vacc) (svec : list R) (t : R) : vacc * list precord :=
  if negb (n_sum =? 0)%Z then
    let dvec := match va_dvec A with None => map (fun _ => 0) svec | Some x => x end in
    let dvec := addl dvec svec in
    let count := (va_count A + 1)%Z in
    if (Z.rem count n_sum =? 0)%Z then
      let mean := map (fun x => 1 / IZR count * x) dvec in
      (mkAcc (Some (map (fun _ => 0) mean)) 0, [write_vec count mean t])
    else (mkAcc (Some dvec) count, [])
  else (A, [write_vec (va_count A) svec t]).

(** * Monitoring: probes.cpp:114-148 *)
Record pconf := mkPC { pc_field : Z; pc_nmonitor : Z; pc_tstart : R; pc_tend : R }.

Definition Rleb (a b : R) : bool := if Rle_dec a b then true else false.
(** [monitorVec] is called with the vector of the field, or not at all. *)
Definition monitor {S O} (m : mesh) (D : dec) (c : pconf) (monitorVec : S -> vec -> R -> res (S * list O))
           (s : S) (U p : vec) (n : Z) (t : R) : res (S * list O) :=
  if (pc_nmonitor c =? 0)%Z then UB
  else if (Z.rem n (pc_nmonitor c) =? 0)%Z && Rleb (pc_tstart c) t && Rleb t (pc_tend c) then
    if (pc_field c <? m_dim m)%Z then monitorVec s (vel_access m D U (pc_field c)) t
    else if (pc_field c =? 3)%Z then monitorVec s p t
    else Err PETSC_ERR_SUP
  else Ok (s, []).

(** The calls the solver makes (navierstokes.cpp:840-856), in order: step,
    time, velocity, pressure. *)
Definition call : Type := Z * R * vec * vec.
Definition run_probe {S O} (m : mesh) (D : dec) (c : pconf) (monitorVec : S -> vec -> R -> res (S * list O))
           (s : S) (calls : list call) : res (S * list O) :=
  foldM (fun so (cl : call) => let '(n, t, U, p) := cl in
    do (s', o) <- monitor m D c monitorVec (fst so) U p n t; Ok (s', (snd so ++ o)%list)) calls (s, []).

Definition volumeMonitorVec (m : mesh) (f : Z) (P : vprobe) (n_sum : Z) (A : vacc) (v : vec) (t : R) : res (vacc * list precord) :=
  do s <- subVector m f P v; Ok (probeVolumeMonitorVec n_sum A s t).
