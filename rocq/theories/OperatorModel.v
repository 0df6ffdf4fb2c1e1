(** Model of the operator construction: src/operators/createlaplacian.cpp,
    createdivergence.cpp, creategradient.cpp, creatediagmatrix.cpp. *)
From Verif Require Import Prelude ZSum RSum TypesModel GridModel IndexModel BoundaryModel.
Local Open Scope R_scope.

(** * Sparse matrices
    A PETSc matrix is the log of the MatSetValue(s) calls made on it. The rows
    a rank sets in the INSERT phase belong to that rank, so the order between
    ranks is immaterial; the logs of the ranks are concatenated. INSERT and ADD
    phases are separated by a collective MAT_FLUSH_ASSEMBLY. The options
    MAT_IGNORE_ZERO_ENTRIES and MAT_KEEP_NONZERO_PATTERN only affect which
    zeros are stored. *)
Inductive imode := INSERT_VALUES | ADD_VALUES.
Record mev := mkEv { ev_row : Z; ev_col : Z; ev_val : R; ev_mode : imode }.

(** Entry (r, c), r, c >= 0, of the assembled matrix. MatSetValues ignores
    negative rows and columns, which never match. *)
Definition apply_ev (r c : Z) (acc : R) (e : mev) : R :=
  if (ev_row e =? r)%Z && (ev_col e =? c)%Z
  then match ev_mode e with INSERT_VALUES => ev_val e | ADD_VALUES => acc + ev_val e end
  else acc.
Definition entry (log : list mev) (r c : Z) : R := fold_left (apply_ev r c) log 0.
(** MatMult: row r of the product with a vector of length N. *)
Definition mat_mult (log : list mev) (N : Z) (x : Z -> R) (r : Z) : R :=
  zsum (fun c => entry log r c * x c) 0 N.

(** type::MatrixModifier (include/petibm/type.h:184-194): for each component a
    map from ghost stencil to (row, coefficient). *)
Definition modmap : Type := Z -> list (stencil * (Z * R)).
Definition no_mods : modmap := fun _ => [].
Definition mod_put (ms : modmap) (f : Z) (s : stencil) (row : Z) (coeff : R) : modmap :=
  fun g => if (g =? f)%Z then mput (ms g) s (row, coeff) else ms g.
(** modifier[f][stencil]: std::map::operator[] value-initialises a missing
    entry, i.e. row 0 and coefficient 0.0. *)
Definition mod_get (ms : modmap) (f : Z) (s : stencil) : Z * R :=
  match mget (ms f) s with Some rc => rc | None => (0%Z, 0) end.

(** What one rank holds while assembling: its part of the matrix log and its
    modifiers. *)
Record ast := mkAst { as_log : list mev; as_mods : modmap }.
Definition as_init : ast := mkAst [] no_mods.
Definition log_set (s : ast) (row col : Z) (v : R) (md : imode) : ast :=
  mkAst (as_log s ++ [mkEv row col v md]) (as_mods s).
Definition put_mod (s : ast) (f : Z) (st : stencil) (row : Z) (v : R) : ast :=
  mkAst (as_log s) (mod_put (as_mods s) f st row v).

(** An assembled operator: the matrix and the modifiers of every rank. *)
Record oper := mkOper { op_log : list mev; op_mods : list modmap }.

(** A boundary object on every rank: rank -> bds[f][loc]. *)
Definition boundary : Type := Z -> list (list sbd).
(** The boundary points of a rank, in loop order:
    for f < dim, for bd in bds[f], if onThisProc, for pt in points. *)
Definition rank_points (b : list (list sbd)) (dim : Z) : res (list (Z * (stencil * ginfo))) :=
  do per_f <- mapM (fun f => do row <- rd b f;
      Ok (flat_map (fun bd => if sb_on bd then map (fun kp => (f, kp)) (sb_points bd) else []) row))
    (zrange 0 dim);
  Ok (concat per_f).

(** The ADD phase: createlaplacian.cpp:221-233 and createdivergence.cpp:232-244
    (the same loop). *)
Definition add_phase (m : mesh) (ms : modmap) (b : list (list sbd)) : res (list mev) :=
  do pts <- rank_points b (m_dim m);
  Ok (map (fun fkp => let '(f, (key, p)) := fkp in
             let '(row, coeff) := mod_get ms f key in
             mkEv row (gi_tid p) (coeff * gi_a0 p) ADD_VALUES) pts).

(** createlaplacian.cpp:45-78 and createdivergence.cpp:45-78 (the same code):
    the VecSetValue(ADD_VALUES) calls of all ranks on the zeroed vector y. *)
Definition correction_events (m : mesh) (nr : Z) (op : oper) (B : boundary) : res (list (Z * R)) :=
  do evs <- mapM (fun r =>
      do ms <- rd (op_mods op) r;
      do pts <- rank_points (B r) (m_dim m);
      Ok (map (fun fkp => let '(f, (key, p)) := fkp in
                 let '(row, coeff) := mod_get ms f key in (row, coeff * gi_a1 p)) pts))
    (zrange 0 nr);
  Ok (concat evs).
Definition vec_add_all (evs : list (Z * R)) (r : Z) : R :=
  sumR (fun e => if (fst e =? r)%Z then snd e else 0) evs.
Definition correction_mult (m : mesh) (nr : Z) (op : oper) (B : boundary) : res (Z -> R) :=
  do evs <- correction_events m nr op B; Ok (vec_add_all evs).

(** * Laplacian *)

(** createlaplacian.cpp:188-207 *)
Definition lap_stencils (dim i j k : Z) : list stencil :=
  [mkSt k j i 0; mkSt k j (i - 1) 0; mkSt k j (i + 1) 0; mkSt k (j - 1) i 0; mkSt k (j + 1) i 0]
  ++ (if (dim =? 3)%Z then [mkSt (k - 1) j i 0; mkSt (k + 1) j i 0] else []).

(** createlaplacian.cpp:131-147, one direction *)
Definition lap_dir_vals (m : mesh) (f i j k dir : Z) : res (R * R) :=
  let self := if (dir =? 0)%Z then i else if (dir =? 1)%Z then j else k in
  do dLSelf <- m_dL m f dir self;
  do c0 <- m_coord m f dir self;
  do cm <- m_coord m f dir (self - 1)%Z;
  do cp <- m_coord m f dir (self + 1)%Z;
  Ok (1 / ((c0 - cm) * dLSelf), 1 / ((cp - c0) * dLSelf)).

(** createlaplacian.cpp:108-162 *)
Definition setRowValues (m : mesh) (D : dec) (f : Z) (s : ast) (p : Z * Z * Z) : res ast :=
  let '(i, j, k) := p in
  let stencils := lap_stencils (m_dim m) i j k in
  do cols <- mapM (gidx m D f) stencils;
  do dv <- mapM (lap_dir_vals m f i j k) (zrange 0 (m_dim m));
  let off := flat_map (fun ab => [fst ab; snd ab]) dv in
  let values := - sumR (fun v => v) off :: off in
  do row <- rd cols 0;
  let s1 := fold_left (fun s cv => log_set s row (fst cv) (snd cv) INSERT_VALUES) (combine cols values) s in
  Ok (fold_left (fun s scv => let '(st, (c, v)) := scv in
                   if (c =? -1)%Z then put_mod s f st row v else s)
                (combine stencils (combine cols values)) s1).

(** createlaplacian.cpp:210-225 on rank r *)
Definition laplacian_rank (m : mesh) (D : dec) (r : Z) : res ast :=
  foldM (fun s f => foldM (setRowValues m D f) (local_points D f r) s) (zrange 0 (m_dim m)) as_init.

(** createlaplacian.cpp:170-263 *)
Definition createLaplacian (m : mesh) (D : dec) (B : boundary) : res oper :=
  do ranks <- mapM (laplacian_rank m D) (zrange 0 (nranks D));
  do adds <- mapM (fun r => do s <- rd ranks r; add_phase m (as_mods s) (B r)) (zrange 0 (nranks D));
  Ok (mkOper (concat (map as_log ranks) ++ concat adds) (map as_mods ranks)).

(** * Divergence *)

(** createdivergence.cpp:119-131 *)
Definition div_neighbor (field i j k : Z) : stencil :=
  if (field =? 0)%Z then mkSt k j (i - 1) 0
  else if (field =? 1)%Z then mkSt k (j - 1) i 0
  else mkSt (k - 1) j i 0.
(** createdivergence.cpp:133-152 *)
Definition div_kernel (m : mesh) (normalize : bool) (field i j k : Z) : res R :=
  if normalize then Ok 1
  else if (field =? 0)%Z then do a <- m_dL m 0 1 j; do b <- m_dL m 0 2 k; Ok (a * b)
  else if (field =? 1)%Z then do a <- m_dL m 1 0 i; do b <- m_dL m 1 2 k; Ok (a * b)
  else do a <- m_dL m 2 0 i; do b <- m_dL m 2 1 j; Ok (a * b).

(** createdivergence.cpp:187-224, one component of one cell *)
Definition div_face (m : mesh) (D : dec) (normalize : bool) (self i j k : Z) (s : ast) (field : Z) : res ast :=
  do value <- div_kernel m normalize field i j k;
  let t1 := mkSt k j i 0 in
  do idx1 <- gidx m D field t1;
  let s1 := log_set s self idx1 value INSERT_VALUES in
  let s2 := if (idx1 =? -1)%Z then put_mod s1 field t1 self value else s1 in
  let t2 := div_neighbor field i j k in
  do idx2 <- gidx m D field t2;
  let s3 := log_set s2 self idx2 (- value) INSERT_VALUES in
  Ok (if (idx2 =? -1)%Z then put_mod s3 field t2 self (- value) else s3).

(** createdivergence.cpp:172-226 *)
Definition div_cell (m : mesh) (D : dec) (normalize : bool) (s : ast) (p : Z * Z * Z) : res ast :=
  let '(i, j, k) := p in
  do self <- fidx m D 3 (mkSt k j i 0);
  foldM (div_face m D normalize self i j k) (zrange 0 (m_dim m)) s.
Definition divergence_rank (m : mesh) (D : dec) (normalize : bool) (r : Z) : res ast :=
  foldM (div_cell m D normalize) (local_points D 3 r) as_init.

(** createdivergence.cpp:103-262 *)
Definition createDivergence (m : mesh) (D : dec) (B : boundary) (normalize : bool) : res oper :=
  do ranks <- mapM (divergence_rank m D normalize) (zrange 0 (nranks D));
  do adds <- mapM (fun r => do s <- rd ranks r; add_phase m (as_mods s) (B r)) (zrange 0 (nranks D));
  Ok (mkOper (concat (map as_log ranks) ++ concat adds) (map as_mods ranks)).

(** * Gradient *)

(** creategradient.cpp:49-61 *)
Definition grad_neighbors (field i j k : Z) : stencil * stencil :=
  (mkSt k j i 0,
   if (field =? 0)%Z then mkSt k j (i + 1) 0
   else if (field =? 1)%Z then mkSt k (j + 1) i 0
   else mkSt (k + 1) j i 0).
(** creategradient.cpp:64-91 *)
Definition grad_kernel (m : mesh) (normalize : bool) (field i j k : Z) : res (R * R) :=
  if normalize then Ok (-1, 1)
  else do w <- (if (field =? 0)%Z then m_dL m 0 0 i else if (field =? 1)%Z then m_dL m 1 1 j else m_dL m 2 2 k);
       let v := 1 / w in Ok (- v, v).
(** creategradient.cpp:108-128 *)
Definition grad_row (m : mesh) (D : dec) (normalize : bool) (field : Z) (log : list mev) (p : Z * Z * Z) : res (list mev) :=
  let '(i, j, k) := p in
  let '(l0, l1) := grad_neighbors field i j k in
  do (v0, v1) <- grad_kernel m normalize field i j k;
  do rId <- gidx m D field l0;
  do c0 <- gidx m D 3 l0;
  do c1 <- gidx m D 3 l1;
  Ok (log ++ [mkEv rId c0 v0 INSERT_VALUES; mkEv rId c1 v1 INSERT_VALUES]).
(** creategradient.cpp:36-135 *)
Definition createGradient (m : mesh) (D : dec) (normalize : bool) : res (list mev) :=
  do ranks <- mapM (fun r =>
      foldM (fun log f => foldM (grad_row m D normalize f) (local_points D f r) log) (zrange 0 (m_dim m)) [])
    (zrange 0 (nranks D));
  Ok (concat ranks).

(** * Diagonal operators *)

(** creatediagmatrix.cpp:43-87. The stencil's component entry is 1 there; it is
    not used by the index functions. *)
Definition createDiagMatrix (m : mesh) (D : dec) (kernel : Z -> Z * Z * Z -> res R) : res (list mev) :=
  do ranks <- mapM (fun r =>
      foldM (fun log f => foldM (fun log p => let '(i, j, k) := p in
          do idx <- gidx m D f (mkSt k j i 1);
          do v <- kernel f p;
          Ok (log ++ [mkEv idx idx v INSERT_VALUES])) (local_points D f r) log) (zrange 0 (m_dim m)) [])
    (zrange 0 (nranks D));
  Ok (concat ranks).

(** creatediagmatrix.cpp:99-110 *)
Definition area_kernel (m : mesh) (f : Z) (p : Z * Z * Z) : res R :=
  let '(i, j, k) := p in
  if (f =? 0)%Z then do a <- m_dL m 0 1 j; do b <- m_dL m 0 2 k; Ok (a * b)
  else if (f =? 1)%Z then do a <- m_dL m 1 0 i; do b <- m_dL m 1 2 k; Ok (a * b)
  else do a <- m_dL m 2 0 i; do b <- m_dL m 2 1 j; Ok (a * b).
(** creatediagmatrix.cpp:90-117 *)
Definition createR (m : mesh) (D : dec) : res (list mev) := createDiagMatrix m D (area_kernel m).
(** creatediagmatrix.cpp:120-147 *)
Definition createRInv (m : mesh) (D : dec) : res (list mev) :=
  createDiagMatrix m D (fun f p => do a <- area_kernel m f p; Ok (1 / a)).
(** creatediagmatrix.cpp:159-170 *)
Definition width_kernel (m : mesh) (f : Z) (p : Z * Z * Z) : res R :=
  let '(i, j, k) := p in
  if (f =? 0)%Z then m_dL m 0 0 i else if (f =? 1)%Z then m_dL m 1 1 j else m_dL m 2 2 k.
(** creatediagmatrix.cpp:150-177 *)
Definition createMHead (m : mesh) (D : dec) : res (list mev) := createDiagMatrix m D (width_kernel m).
(** creatediagmatrix.cpp:180-207 *)
Definition createM (m : mesh) (D : dec) : res (list mev) :=
  createDiagMatrix m D (fun f p => do w <- width_kernel m f p; do a <- area_kernel m f p; Ok (w / a)).
(** creatediagmatrix.cpp:210-231 *)
Definition createIdentity (m : mesh) (D : dec) : res (list mev) := createDiagMatrix m D (fun _ _ => Ok 1).
