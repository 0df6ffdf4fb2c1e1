(** Model of src/body/bodypack.cpp, src/body/singlebodypoints.cpp and of
    readLagrangianPoints in src/io/io.cpp. *)
From Coq Require Import String Ascii Reals Lra.
From Verif Require Import Prelude ZSum TypesModel GridModel IndexModel.
Local Open Scope Z_scope.

(** * Bodies and their distribution over the ranks *)

(** A body: number of points and number of points on each rank
    (singlebodypoints.cpp:66-77: a 1D DMDA with [dim] components per point;
    xs, xm of DMDAGetLocalInfo). *)
Record body := mkBody { b_nPts : Z; b_l : Z -> Z }.

(** PETSc's default split of a 1D DMDA, as in [dmda_l] (singlebodypoints.cpp:68
    passes lx = nullptr). *)
Definition default_body (size n : Z) : body := mkBody n (dmda_l n size).

(** singlebodypoints.cpp:75-77: bgPt, nLclPts, edPt of rank r. *)
Definition b_bg (b : body) (r : Z) : Z := isum (b_l b) 0 r.
Definition b_ed (b : body) (r : Z) : Z := b_bg b r + b_l b r.

(** singlebodypoints.cpp:79-84: points per rank times [dim]. *)
Definition sb_nLclAllProcs (dim : Z) (b : body) (r : Z) : Z := b_l b r * dim.
(** singlebodypoints.cpp:86-90. *)
Definition sb_offsets (size dim : Z) (b : body) : Z -> Z := offsets_of size (sb_nLclAllProcs dim b).

(** singlebodypoints.cpp:156-172. *)
Definition sb_findProc (size dim : Z) (b : body) (i : Z) : res Z :=
  if (i <? 0) || (i >=? b_nPts b) then Err PETSC_ERR_ARG_SIZ
  else Ok (upper_bound (map (sb_offsets size dim b) (zrange 0 size)) (i * dim) - 1).

(** singlebodypoints.cpp:174-193. *)
Definition sb_getGlobalIndex (dim : Z) (b : body) (i dof : Z) : res Z :=
  if (i <? 0) || (i >=? b_nPts b) then Err PETSC_ERR_ARG_SIZ
  else if (dof <? 0) || (dof >=? dim) then Err PETSC_ERR_ARG_SIZ
  else Ok (i * dim + dof).

(** bodypack.cpp:118-119: points (times dim) of all bodies on each rank. *)
Definition bp_nLclAllProcs (dim : Z) (bodies : list body) (r : Z) : Z :=
  fold_left (fun s b => s + sb_nLclAllProcs dim b r) bodies 0.
(** bodypack.cpp:122. *)
Definition bp_nPts (bodies : list body) : Z := fold_left (fun s b => s + b_nPts b) bodies 0.
(** bodypack.cpp:129-132. *)
Definition bp_offsets (size dim : Z) (bodies : list body) : Z -> Z :=
  offsets_of size (bp_nLclAllProcs dim bodies).

(** bodypack.cpp:211-227. *)
Definition bp_findProc (size dim : Z) (bodies : list body) (b i : Z) : res Z :=
  if (b <? 0) || (b >=? lenZ bodies) then Err PETSC_ERR_ARG_SIZ
  else do bo <- rd bodies b; sb_findProc size dim bo i.

(** bodypack.cpp:229-246. *)
Definition bp_getGlobalIndex (dim : Z) (bodies : list body) (b i dof : Z) : res Z :=
  if (b <? 0) || (b >=? lenZ bodies) then Err PETSC_ERR_ARG_SIZ
  else do bo <- rd bodies b; sb_getGlobalIndex dim bo i dof.

(** offsetsAllProcs[p], nLclAllProcs[p]: vectors with one entry per rank. *)
Definition per_rank (size : Z) (t : Z -> Z) (p : Z) : res Z :=
  if (0 <=? p) && (p <? size) then Ok (t p) else UB.

(** bodypack.cpp:261-283. *)
Definition bp_getPackedGlobalIndex (size dim : Z) (bodies : list body) (b i dof : Z) : res Z :=
  do p <- bp_findProc size dim bodies b i;
  do un <- bp_getGlobalIndex dim bodies b i dof;
  do idx0 <- per_rank size (bp_offsets size dim bodies) p;
  do idx1 <- foldM (fun s b' => do bo <- rd bodies b';
                                do n <- per_rank size (sb_nLclAllProcs dim bo) p; Ok (s + n))
                   (zrange 0 b) idx0;
  do bo <- rd bodies b;
  do o <- per_rank size (sb_offsets size dim bo) p;
  Ok (idx1 + (un - o)).

(** * Integrated forces *)

(** A packed (DMComposite) vector: [f r] is the local array of rank r.
    DMCompositeGetAccessArray: the part of body b is the slice of
    nLclPts * dim entries that follows the parts of the bodies before it. *)
Definition access (dim : Z) (bodies : list body) (f : Z -> list R) (b r : Z) : res (list R) :=
  do bo <- rd bodies b;
  let start := fold_left (fun s bo' => s + sb_nLclAllProcs dim bo' r) (firstn (Z.to_nat b) bodies) 0 in
  Ok (firstn (Z.to_nat (sb_nLclAllProcs dim bo r)) (skipn (Z.to_nat start) (f r))).

Local Open Scope R_scope.
(** singlebodypoints.cpp:207-229: sum of one rank. [fArry[i][dof]] of a 1D DMDA
    with dim components is entry (i - bgPt) * dim + dof of the local array. *)
Definition sb_localForces (dim : Z) (b : body) (r : Z) (fl : list R) : res (list R) :=
  foldM (fun acc i =>
           foldM (fun acc dof =>
                    do v <- rd fl ((i - b_bg b r) * dim + dof)%Z;
                    do a <- rd acc dof;
                    wr acc dof (a - v))
                 (zrange 0 dim) acc)
        (zrange (b_bg b r) (b_ed b r)) (repeat 0 (Z.to_nat dim)).

(** MPI_Allreduce with MPI_SUM of one array per rank (exact reals: the order of
    the additions does not matter). *)
Definition allreduce (dim : Z) (parts : list (list R)) : list R :=
  map (fun c => fold_right Rplus 0 (map (fun p => nth (Z.to_nat c) p 0) parts)) (zrange 0 dim).

(** singlebodypoints.cpp:207-236. *)
Definition sb_calculateAvgForces (size dim : Z) (b : body) (fb : Z -> res (list R)) : res (list R) :=
  do parts <- mapM (fun r => do fl <- fb r; sb_localForces dim b r fl) (zrange 0 size);
  Ok (allreduce dim parts).

(** bodypack.cpp:298-324. *)
Definition bp_calculateAvgForces (size dim : Z) (bodies : list body) (f : Z -> list R) : res (list (list R)) :=
  mapM (fun b => do bo <- rd bodies b; sb_calculateAvgForces size dim bo (access dim bodies f b))
       (zrange 0 (lenZ bodies)).

(** * updateMeshIdx *)

(** std::upper_bound on [coord, coord + n): index of the first element greater
    than x. *)
Fixpoint upper_boundR (l : list R) (x : R) : Z :=
  match l with [] => 0%Z | y :: t => if Rlt_dec x y then 0%Z else (1 + upper_boundR t x)%Z end.

(** singlebodypoints.cpp:104-115: one coordinate. *)
Definition host_index (m : mesh) (d : Z) (x : R) : res Z :=
  if Rge_dec (m_min m d) x then Err PETSC_ERR_MAX_VALUE
  else if Rle_dec (m_max m d) x then Err PETSC_ERR_MAX_VALUE
  else do vs <- mapM (m_coord m 4 d) (zrange 0 (m_n m 4 d));
       Ok (upper_boundR vs x - 1)%Z.

(** singlebodypoints.cpp:95-119 on rank r: meshIdx of the local points. *)
Definition updateMeshIdx (m : mesh) (dim : Z) (b : body) (coords : list (list R)) (r : Z) : res (list (list Z)) :=
  mapM (fun i => do row <- rd coords i; mapM (fun d => do x <- rd row d; host_index m d x) (zrange 0 dim))
       (zrange (b_bg b r) (b_ed b r)).

(** bodypack.cpp:160-172: the bodies one after the other; the first error is
    returned. *)
Definition bp_updateMeshIdx (m : mesh) (dim : Z) (bodies : list (body * list (list R))) (r : Z)
  : res (list (list (list Z))) :=
  mapM (fun bc => updateMeshIdx m dim (fst bc) (snd bc) r) bodies.

(** * readLagrangianPoints *)
Local Open Scope string_scope.

(** Reading a number from a std::stringstream: the value and what is left of
    the line. *)
Record lexer := mkLex { lex_int : string -> option (Z * string); lex_real : string -> option (R * string) }.

(** A text file: its lines and whether the last one ends with a newline. *)
Record text := mkText { t_lines : list string; t_nl : bool }.

(** [std::vector(n)] with a negative n: the uncaught exception
    std::length_error. *)
Definition THROWS : Z := (-1)%Z.

(** io.cpp:64: while (sline >> temp) dim += 1. A successful read consumes at
    least one character, so the length of the line bounds the iterations. *)
Fixpoint count_reals (lx : lexer) (fuel : nat) (s : string) : Z :=
  match fuel with
  | O => 0%Z
  | S k => match lex_real lx s with Some (_, s') => (1 + count_reals lx k s')%Z | None => 0%Z end
  end.

(** io.cpp:79: the first coordinate set, read again; a failed extraction
    stores 0. *)
Fixpoint first_row (lx : lexer) (n : nat) (s : string) : list R :=
  match n with
  | O => []
  | S k => match lex_real lx s with
           | Some (v, s') => v :: first_row lx k s'
           | None => 0 :: first_row lx k s
           end
  end.

(** io.cpp:90-95: one further coordinate set. *)
Fixpoint next_row (lx : lexer) (n : nat) (s : string) : res (list R * string) :=
  match n with
  | O => Ok ([], s)
  | S k => match lex_real lx s with
           | Some (v, s') => do (t, s'') <- next_row lx k s'; Ok (v :: t, s'')
           | None => Err PETSC_ERR_FILE_READ
           end
  end.

(** io.cpp:86-104: the loop over the remaining lines. Writing coords[c] with
    c >= nPts is undefined behaviour. *)
Fixpoint next_rows (lx : lexer) (dim nPts : Z) (ls : list string) (coords : list (list R)) (c : Z)
  : res (list (list R) * Z) :=
  match ls with
  | [] => Ok (coords, c)
  | s :: t =>
      if (c >=? nPts)%Z then UB
      else do (row, s') <- next_row lx (Z.to_nat dim) s;
           if String.eqb s' "" then
             do coords' <- wr coords c row;
             next_rows lx dim nPts t coords' (c + 1)
           else Err PETSC_ERR_FILE_READ
  end.

(** io.cpp:23-118; [None]: the file cannot be opened. When the header is the
    last line and has no newline, the second getline fails without touching
    [line], which still holds the header. *)
Definition readLagrangianPoints (lx : lexer) (file : option text) : res (Z * list (list R)) :=
  match file with
  | None => Err PETSC_ERR_FILE_READ
  | Some tx =>
      match t_lines tx with
      | [] => Err PETSC_ERR_FILE_READ
      | header :: rest =>
          match lex_int lx header with
          | None => Err PETSC_ERR_FILE_READ
          | Some (nPts, extra) =>
              if negb (String.eqb extra "") then Err PETSC_ERR_FILE_READ
              else
                let line := match rest with s :: _ => s | [] => if t_nl tx then "" else header end in
                let dim := count_reals lx (String.length line) line in
                if (dim =? 0)%Z then Err PETSC_ERR_FILE_READ
                else if (nPts <? 0)%Z then Err THROWS
                else if (nPts =? 0)%Z then UB
                else
                  let coords0 := repeat (repeat 0 (Z.to_nat dim)) (Z.to_nat nPts) in
                  do coords1 <- wr coords0 0 (first_row lx (Z.to_nat dim) line);
                  do (coords, c) <- next_rows lx dim nPts (tl rest) coords1 1;
                  if negb (c =? nPts)%Z then Err PETSC_ERR_FILE_READ
                  else Ok (nPts, coords)
          end
      end
  end.

(** singlebodypoints.cpp:27-59: the checks of init. coords[0] exists because a
    successful read has at least one point. *)
Definition sb_init (lx : lexer) (dim : Z) (file : option text) : res (Z * list (list R)) :=
  do (n, coords) <- readLagrangianPoints lx file;
  do row <- rd coords 0;
  if negb (dim =? lenZ row)%Z then Err PETSC_ERR_FILE_READ else Ok (n, coords).

Definition tab : string := String (ascii_of_nat 9) "".

(** singlebodypoints.cpp:251-285; [pr] is printf's %10.8e. *)
Definition writeBody (pr : R -> string) (dim nPts : Z) (coords : list (list R)) : res text :=
  if (dim =? 3)%Z then
    do ls <- mapM (fun k => do row <- rd coords k; do x <- rd row 0; do y <- rd row 1; do z <- rd row 2;
                            Ok (pr x ++ tab ++ pr y ++ tab ++ pr z)) (zrange 0 nPts);
    Ok (mkText ls true)
  else if (dim =? 2)%Z then
    do ls <- mapM (fun k => do row <- rd coords k; do x <- rd row 0; do y <- rd row 1;
                            Ok (pr x ++ tab ++ pr y)) (zrange 0 nPts);
    Ok (mkText ls true)
  else Err 67%Z.

(** * The number syntax of C++ streams (operator>> for int and double in the
    "C" locale, libstdc++). *)
Definition is_space (c : ascii) : bool :=
  let n := nat_of_ascii c in (Nat.eqb n 32 || (Nat.leb 9 n && Nat.leb n 13))%bool.
Definition is_digit (c : ascii) : bool :=
  let n := nat_of_ascii c in (Nat.leb 48 n && Nat.leb n 57)%bool.
Definition digit_val (c : ascii) : Z := (Z.of_nat (nat_of_ascii c) - 48)%Z.

Fixpoint skip_ws (s : string) : string :=
  match s with String c t => if is_space c then skip_ws t else s | "" => "" end.

(** Longest run of digits: value, number of digits, rest. *)
Fixpoint digits (acc cnt : Z) (s : string) : Z * Z * string :=
  match s with
  | String c t => if is_digit c then digits (10 * acc + digit_val c)%Z (cnt + 1)%Z t else (acc, cnt, s)
  | "" => (acc, cnt, "")
  end.
Definition sign (s : string) : Z * string :=
  match s with
  | String c t => if Ascii.eqb c "-" then ((-1)%Z, t) else if Ascii.eqb c "+" then (1%Z, t) else (1%Z, s)
  | "" => (1%Z, "")
  end.

(** Overflow of the machine integer is not modelled. *)
Definition cxx_int (s : string) : option (Z * string) :=
  let (sg, s1) := sign (skip_ws s) in
  let '(v, n, rest) := digits 0 0 s1 in
  if (n =? 0)%Z then None else Some ((sg * v)%Z, rest).

(** Decimal floating point syntax; rounding and overflow are not modelled. *)
Definition cxx_real (s : string) : option (R * string) :=
  let (sg, s1) := sign (skip_ws s) in
  let '(v, n, s2) := digits 0 0 s1 in
  let '(v', n', s3) :=
    match s2 with
    | String c t => if Ascii.eqb c "." then digits v 0 t else (v, 0%Z, s2)
    | "" => (v, 0%Z, "")
    end in
  if (n + n' =? 0)%Z then None
  else
    let m := (IZR (sg * v') / 10 ^ Z.to_nat n')%R in
    match s3 with
    | String c t =>
        if (Ascii.eqb c "e" || Ascii.eqb c "E")%bool then
          let (se, s4) := sign t in
          let '(e, ne, s5) := digits 0 0 s4 in
          if (ne =? 0)%Z then None
          else Some ((if (se <? 0)%Z then m / 10 ^ Z.to_nat e else m * 10 ^ Z.to_nat e)%R, s5)
        else Some (m, s3)
    | "" => Some (m, s3)
    end.

Definition cxx : lexer := mkLex cxx_int cxx_real.
