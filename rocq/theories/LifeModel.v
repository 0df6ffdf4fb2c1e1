(** Model of the life of the objects a program allocates: which function creates
    which PETSc object, who holds references to it, and who releases it. Source:
    applications/navierstokes, ibpm, decoupledibpm, rigidkinematics (init,
    ioInitialData, advance, write, destroy), src/mesh/mesh.cpp:17-72,
    src/mesh/cartesianmesh.cpp:36-133, 492-575, src/boundary, src/solution,
    src/body, src/linsolver/linsolverksp.cpp, src/misc/probes.cpp, src/io/io.cpp,
    src/operators/*.cpp.

    Two parts. The first is the memory: objects with a reference count and the
    references they hold, as PETSc documents them (XCreate returns an object
    with count one, XDestroy(&x) gives one reference back and sets x to NULL, an
    object whose count reaches zero gives back the references it holds), and the
    same for std::shared_ptr. The second part lists, function by function, the
    operations the code performs on handles. Numbers, file contents and MPI are
    in the other models and do not appear here.

    Simplifications. The members of an object that only one pointer ever holds
    (the solution, the linear solvers, the bodies, the probes) are variables of
    their own, and x.reset() is the body of the destructor; of the solution, the
    object that holds the mesh is [Ssol] and its vectors are [SsolU], [SsolP].
    A raw copy of a handle that is used while the original is not is a move.
    The arrays shared by the two vectors of the coupled solver are not modelled
    here. Objects PETSc creates inside its own objects are not modelled. *)
From Verif Require Import Prelude.
Local Open Scope Z_scope.

(** * Memory *)

(** Classes of objects: viewers, index sets, DMs, composite DMs, vectors, null
    spaces, meshes, solutions, sides of the boundary, boundaries, matrices,
    nested matrices, linear solvers. An object only takes references to objects of a
    lower class, or to older ones of its own. *)
Inductive kind := KView | KIs | KDm | KPack | KVec | KNsp | KMesh | KSol | KSide | KBc | KMat | KNest | KKsp.

Definition rank (k : kind) : Z :=
  match k with
  | KView => 0 | KIs => 1 | KDm => 2 | KPack => 3 | KVec => 4 | KNsp => 5 | KMesh => 6 | KSol => 7 | KSide => 8 | KBc => 9 | KMat => 10
  | KNest => 11 | KKsp => 12
  end.

(** Variables that hold handles: the members of the solvers, then the locals of
    the functions. *)
Inductive slot :=
(* applications/navierstokes/navierstokes.h:89-209, include/petibm/solution.h:66-69 *)
| SdP | Sbc1 | Srhs1 | Srhs2 | Sconv (i : Z) | Sdiff (i : Z) | SA | SDBNG | SBNG | SN | SG | SD | SDcorr | SL | SLcorr
| SvKsp | SpKsp | Ssol | SsolU | SsolP | Sbc | Smesh | SsolversV
(* include/petibm/probes.h:84, 148-154, 313 *)
| SpView (i : Z) | SpIsP (i : Z) | SpIsN (i : Z) | SpDvec (i : Z) | SpSvec (i : Z)
(* applications/ibpm/ibpm.h:57-73, applications/decoupledibpm/decoupledibpm.h:60-96,
   applications/rigidkinematics/rigidkinematics.h:59 *)
| SP | SisDE (i : Z) | SforcesV | SbDa (i : Z) | SbPack
| SH | SE | SEBNH | SBNH | Sf | Sdf | Srhsf | SfKsp | SUB
(* the members of a mesh, of a boundary and of the context of the convection
   while they are built *)
| SmDa (i : Z) | SmPack | Sside | Sq (i : Z)
(* locals *)
| LBN | Lright | Ltemp | Lnsp | Lacc (i : Z) | Lsub | LvIo | LtIo | LvTime | LvRest | LvLog | Lv2 | Lt2
| LR | LMHat | LRD | LMD | LGH (i : Z) | LDE (i : Z) | Lswap | Ln | Lphi | LvF | LvBody | Lbacc (i : Z)
| LOp | LM | LMHead | LMInv | Lleft | LBn.

Definition code (s : slot) : Z * Z :=
  match s with
  | SdP => (0, 0) | Sbc1 => (1, 0) | Srhs1 => (2, 0) | Srhs2 => (3, 0) | Sconv i => (4, i) | Sdiff i => (5, i)
  | SA => (6, 0) | SDBNG => (7, 0) | SBNG => (8, 0) | SN => (9, 0) | SG => (10, 0) | SD => (11, 0) | SDcorr => (12, 0)
  | SL => (13, 0) | SLcorr => (14, 0) | SvKsp => (15, 0) | SpKsp => (16, 0) | SsolU => (17, 0) | SsolP => (18, 0)
  | Sbc => (19, 0) | Smesh => (20, 0) | SsolversV => (21, 0)
  | SpView i => (22, i) | SpIsP i => (23, i) | SpIsN i => (24, i) | SpDvec i => (25, i) | SpSvec i => (26, i)
  | SP => (27, 0) | SisDE i => (28, i) | SforcesV => (29, 0) | SbDa i => (30, i) | SbPack => (31, 0)
  | SH => (32, 0) | SE => (33, 0) | SEBNH => (34, 0) | SBNH => (35, 0) | Sf => (36, 0) | Sdf => (37, 0) | Srhsf => (38, 0)
  | SfKsp => (39, 0) | SUB => (40, 0)
  | SmDa i => (41, i) | SmPack => (42, 0) | Sside => (43, 0) | Sq i => (44, i)
  | LBN => (45, 0) | Lright => (46, 0) | Ltemp => (47, 0) | Lnsp => (48, 0) | Lacc i => (49, i) | Lsub => (50, 0)
  | LvIo => (51, 0) | LtIo => (52, 0) | LvTime => (53, 0) | LvRest => (54, 0) | LvLog => (55, 0) | Lv2 => (56, 0) | Lt2 => (57, 0)
  | LR => (58, 0) | LMHat => (59, 0) | LRD => (60, 0) | LMD => (61, 0) | LGH i => (62, i) | LDE i => (63, i) | Lswap => (64, 0)
  | Ln => (65, 0) | Lphi => (66, 0) | LvF => (67, 0) | LvBody => (68, 0) | Lbacc i => (69, i)
  | Ssol => (76, 0) | LOp => (70, 0) | LM => (71, 0) | LMHead => (72, 0) | LMInv => (73, 0) | Lleft => (74, 0) | LBn => (75, 0)
  end.

Definition slot_eqb (x y : slot) : bool :=
  (fst (code x) =? fst (code y)) && (snd (code x) =? snd (code y)).

Record obj := { o_kind : kind; o_count : Z; o_refs : list Z }.

(** The number of the next object, the objects alive, and the variables in
    scope: a variable that is not listed is not initialised, [None] is NULL. *)
Record heap := { h_next : Z; h_objs : list (Z * obj); h_vars : list (slot * option Z) }.

Definition empty_heap : heap := {| h_next := 0; h_objs := []; h_vars := [] |}.

Fixpoint find_obj (l : list (Z * obj)) (i : Z) : option obj :=
  match l with
  | [] => None
  | (j, o) :: l' => if j =? i then Some o else find_obj l' i
  end.

Definition put_obj (l : list (Z * obj)) (i : Z) (o : obj) : list (Z * obj) :=
  map (fun p => if fst p =? i then (i, o) else p) l.

Definition del_obj (l : list (Z * obj)) (i : Z) : list (Z * obj) :=
  filter (fun p => negb (fst p =? i)) l.

Fixpoint find_var (l : list (slot * option Z)) (s : slot) : option (option Z) :=
  match l with
  | [] => None
  | (t, v) :: l' => if slot_eqb t s then Some v else find_var l' s
  end.

Definition del_var (l : list (slot * option Z)) (s : slot) : list (slot * option Z) :=
  filter (fun p => negb (slot_eqb (fst p) s)) l.

Definition set_var (l : list (slot * option Z)) (s : slot) (v : option Z) : list (slot * option Z) :=
  (s, v) :: del_var l s.

(** What an expression of the code denotes: the object a variable holds, or one
    of the objects it refers to (mesh->da[3]), with the static type of the
    expression. *)
Record path := { p_slot : slot; p_kid : option Z; p_kind : kind }.
Definition V (s : slot) (k : kind) : path := {| p_slot := s; p_kid := None; p_kind := k |}.
Definition Fd (s : slot) (i : Z) (k : kind) : path := {| p_slot := s; p_kid := Some i; p_kind := k |}.

(** Using a handle: reading one that was never set, or one whose object is gone,
    is undefined behaviour; PETSc rejects NULL and handles of another class
    (PetscValidHeaderSpecific). *)
Definition resolve (h : heap) (p : path) : res Z :=
  match find_var (h_vars h) (p_slot p) with
  | None => UB
  | Some None => Err 85
  | Some (Some i) =>
      match find_obj (h_objs h) i with
      | None => UB
      | Some o =>
          match p_kid p with
          | None => if rank (o_kind o) =? rank (p_kind p) then Ok i else Err 62
          | Some n =>
              match nthZ (o_refs o) n with
              | None => UB
              | Some j =>
                  match find_obj (h_objs h) j with
                  | None => UB
                  | Some o' => if rank (o_kind o') =? rank (p_kind p) then Ok j else Err 62
                  end
              end
          end
      end
  end.

(** PetscObjectReference, or the copy of a shared_ptr. *)
Definition incref (l : list (Z * obj)) (i : Z) : res (list (Z * obj)) :=
  match find_obj l i with
  | None => UB
  | Some o => Ok (put_obj l i {| o_kind := o_kind o; o_count := o_count o + 1; o_refs := o_refs o |})
  end.

(** PetscObjectDereference for a list of references; an object with no reference
    left is freed and gives back its own. *)
Fixpoint release (fuel : nat) (l : list (Z * obj)) (todo : list Z) : res (list (Z * obj)) :=
  match todo with
  | [] => Ok l
  | i :: rest =>
      match fuel with
      | O => Err 0
      | S fuel' =>
          match find_obj l i with
          | None => UB
          | Some o =>
              if o_count o =? 1 then release fuel' (del_obj l i) (o_refs o ++ rest)
              else release fuel' (put_obj l i {| o_kind := o_kind o; o_count := o_count o - 1; o_refs := o_refs o |}) rest
          end
      end
  end.

Definition refs_total (l : list (Z * obj)) : nat :=
  fold_right (fun p n => (length (o_refs (snd p)) + n)%nat) O l.

Definition release_all (l : list (Z * obj)) (todo : list Z) : res (list (Z * obj)) :=
  release (length todo + refs_total l) l todo.

(** The operations of the code on its handles. *)
Inductive op :=
| ONull (s : slot)                            (* s = PETSC_NULL, or an empty shared_ptr *)
| ONew (s : slot) (k : kind) (ps : list path) (* XCreate(..., &s) *)
| ONewIf (s : slot) (k : kind)                (* if (s == PETSC_NULL) XCreate(..., &s) *)
| OLink (s : slot) (k : kind) (p : path)      (* the object of s takes a reference to p *)
| OGive (s : slot) (k : kind) (t : slot) (kt : kind) (* t becomes a member of the object of s *)
| OClear (s : slot) (k : kind)                (* the object of s gives back its references *)
| ODrop (s : slot)                            (* XDestroy(&s), or s.reset() *)
| OUse (p : path)                             (* any other call *)
| OLeave (s : slot)                           (* the local s goes out of scope *)
| OMove (t s : slot) (k : kind).              (* t = s, and s is not used any more *)

Definition lower (l : list (Z * obj)) (k : kind) (new : Z) (i : Z) : bool :=
  match find_obj l i with
  | None => false
  | Some o => (rank (o_kind o) <? rank k) || ((rank (o_kind o) =? rank k) && (i <? new))
  end.

Definition exec_new (h : heap) (s : slot) (k : kind) (ps : list path) : res heap :=
  do ids <- mapM (resolve h) ps;
  if forallb (lower (h_objs h) k (h_next h)) ids then
    do l <- foldM incref ids (h_objs h);
    Ok {| h_next := h_next h + 1;
          h_objs := (h_next h, {| o_kind := k; o_count := 1; o_refs := ids |}) :: l;
          h_vars := set_var (h_vars h) s (Some (h_next h)) |}
  else Err 62.

Definition exec (h : heap) (o : op) : res heap :=
  match o with
  | ONull s => Ok {| h_next := h_next h; h_objs := h_objs h; h_vars := set_var (h_vars h) s None |}
  | ONew s k ps => exec_new h s k ps
  | ONewIf s k =>
      match find_var (h_vars h) s with
      | None => UB
      | Some None => exec_new h s k []
      | Some (Some _) => Ok h
      end
  | OLink s k p =>
      do o <- resolve h (V s k);
      do i <- resolve h p;
      if rank (p_kind p) <? rank k then
        do l <- incref (h_objs h) i;
        match find_obj l o with
        | None => UB
        | Some ob =>
            Ok {| h_next := h_next h;
                  h_objs := put_obj l o {| o_kind := o_kind ob; o_count := o_count ob; o_refs := o_refs ob ++ [i] |};
                  h_vars := h_vars h |}
        end
      else Err 62
  | OGive s k t kt =>
      do o <- resolve h (V s k);
      do i <- resolve h (V t kt);
      if rank kt <? rank k then
        match find_obj (h_objs h) o with
        | None => UB
        | Some ob =>
            Ok {| h_next := h_next h;
                  h_objs := put_obj (h_objs h) o {| o_kind := o_kind ob; o_count := o_count ob; o_refs := o_refs ob ++ [i] |};
                  h_vars := del_var (h_vars h) t |}
        end
      else Err 62
  | OClear s k =>
      do o <- resolve h (V s k);
      match find_obj (h_objs h) o with
      | None => UB
      | Some ob =>
          do l <- release_all (put_obj (h_objs h) o {| o_kind := o_kind ob; o_count := o_count ob; o_refs := [] |}) (o_refs ob);
          Ok {| h_next := h_next h; h_objs := l; h_vars := h_vars h |}
      end
  | ODrop s =>
      match find_var (h_vars h) s with
      | None => UB
      | Some None => Ok h
      | Some (Some i) =>
          do l <- release_all (h_objs h) [i];
          Ok {| h_next := h_next h; h_objs := l; h_vars := set_var (h_vars h) s None |}
      end
  | OUse p => do _ <- resolve h p; Ok h
  | OLeave s => Ok {| h_next := h_next h; h_objs := h_objs h; h_vars := del_var (h_vars h) s |}
  | OMove t s k =>
      do i <- resolve h (V s k);
      Ok {| h_next := h_next h; h_objs := h_objs h; h_vars := set_var (del_var (h_vars h) s) t (Some i) |}
  end.

Definition run (h : heap) (l : list op) : res heap := foldM exec l h.

(** * Programs *)

(** A probe of the configuration: a volume (the component it reads, whether it
    accumulates) or a point. *)
Inductive pshape := PVolume (field : Z) (sum : bool) | PPoint (field : Z).

(** What the operations on handles depend on. [s_keep]: whether a matrix derived
    from others (MatMatMult, MatDuplicate, MatTranspose, MatConvert) holds
    references to them, which changes from one release of PETSc to the next.
    [s_kspv], [s_kspp], [s_kspf]: the linear solver is a KSP (else AmgX, which
    has no PETSc handle). [s_root]: the process writes the mesh files. *)
Record shape := {
  s_dim : Z; s_conv : Z; s_diff : Z; s_bn : Z; s_keep : bool;
  s_kspv : bool; s_kspp : bool; s_kspf : bool; s_root : bool; s_restart : bool;
  s_probes : list pshape; s_bodies : Z }.

(** What a time step writes: the solution, the restart data (and whether the
    file of the solution is missing then), and the probes that are due. *)
Record event := { e_save : bool; e_restart : bool; e_missing : bool; e_due : Z -> bool }.

Definition loop (n : Z) (f : Z -> list op) : list op := flat_map f (zrange 0 n).
Definition when (b : bool) (l : list op) : list op := if b then l else [].

(** mesh->da[f], mesh->UPack *)
Definition da (f : Z) : path := if f =? 3 then Fd Smesh 0 KDm else Fd Smesh (2 + f) KDm.
Definition upack : path := Fd Smesh 1 KPack.
Definition kept (sh : shape) (ps : list path) : list path := if s_keep sh then ps else [].

(** Default constructors: applications/navierstokes/navierstokes.h:33; the shared
    pointers are empty, the handles are not initialised. *)
Definition ns_ctor : list op := [ONull Smesh; ONull Sbc; ONull Ssol; ONull SsolU; ONull SsolP; ONull SvKsp; ONull SpKsp].

(** src/io/io.cpp:169-205: n arrays. *)
Definition io_arrays (n : Z) : list op :=
  [ONew LvIo KView []] ++
  loop n (fun _ => [ONew LtIo KVec []; OUse (V LtIo KVec); OUse (V LvIo KView); OUse (V LtIo KVec); ODrop LtIo; OLeave LtIo]) ++
  [ODrop LvIo; OLeave LvIo].

(** src/io/io.cpp:137-167, 243-272: the vectors are given. *)
Definition io_vecs (ps : list path) : list op :=
  [ONew LvIo KView []] ++ flat_map (fun p => [OUse p; OUse (V LvIo KView)]) ps ++ [ODrop LvIo; OLeave LvIo].

(** DMCompositeGetAccessArray and DMCompositeRestoreAccessArray. *)
Definition access (n : Z) : list op := loop n (fun f => [ONew (Lacc f) KVec []]).
Definition restore (n : Z) : list op := loop n (fun f => [ODrop (Lacc f); OLeave (Lacc f)]).

(** src/mesh/cartesianmesh.cpp:438-575. The DMs belong to the mesh once it is
    built; ~MeshBase gives them back (src/mesh/mesh.cpp:17-35). *)
Definition mesh_init (sh : shape) : list op :=
  [ONew Smesh KMesh []; ONew (SmDa 3) KDm []; ONew SmPack KPack []] ++
  loop (s_dim sh) (fun i => [ONew (SmDa i) KDm []; OLink SmPack KPack (V (SmDa i) KDm)]) ++
  [OGive Smesh KMesh (SmDa 3) KDm; OGive Smesh KMesh SmPack KPack] ++
  loop (s_dim sh) (fun i => [OGive Smesh KMesh (SmDa i) KDm]).

(** src/mesh/cartesianmesh.cpp:798-823 *)
Definition mesh_write (sh : shape) : list op := when (s_root sh) (loop 5 (fun _ => io_arrays 3)).

(** src/boundary/boundarysimple.cpp:25-64, src/boundary/singleboundarybase.cpp:55-105 *)
Definition bc_init (sh : shape) : list op :=
  [ONew Sbc KBc [V Smesh KMesh]] ++
  loop (s_dim sh) (fun _ => loop (2 * s_dim sh) (fun _ => [ONew Sside KSide [V Smesh KMesh]; OGive Sbc KBc Sside KSide])).

(** src/solution/solutionsimple.cpp:30-57, 122-226; ~SolutionBase gives the vectors
    back, then the mesh (src/solution/solution.cpp:18-31). *)
Definition solution_init : list op := [ONew Ssol KSol [V Smesh KMesh]; ONew SsolU KVec [upack]; ONew SsolP KVec [da 3]].
Definition set_ics (sh : shape) : list op :=
  [OUse upack; OUse (V SsolU KVec)] ++ access (s_dim sh) ++
  loop (s_dim sh) (fun f => [OUse (da f); OUse (V (Lacc f) KVec)]) ++ restore (s_dim sh) ++ [OUse (da 3); OUse (V SsolP KVec)].
Definition ghost_ics : list op := [OUse (V Sbc KBc); OUse (V SsolU KVec)].

(** src/linsolver/linsolver.cpp:57-91, src/linsolver/linsolverksp.cpp:23-107,
    src/linsolver/linsolveramgx.cpp:78-99 *)
Definition solver_init (ksp : bool) (s : slot) : list op := [ONull s] ++ when ksp [ONew s KKsp []].
Definition set_matrix (ksp : bool) (s m : slot) : list op :=
  if ksp then [OClear s KKsp; OLink s KKsp (V m KMat); OLink s KKsp (V m KMat)] else [OUse (V m KMat)].
Definition solve (ksp : bool) (s x b : slot) : list op :=
  when ksp [OUse (V s KKsp)] ++ [OUse (V x KVec); OUse (V b KVec)].

(** src/operators/createdivergence.cpp:25-32, 103-262, creategradient.cpp:36-135,
    createlaplacian.cpp:35-43, 170-263, createconvection.cpp:23-37, 343-414: the
    contexts of the shells hold the boundary, the one of the convection also
    the mesh and its local vectors. *)
Definition create_divergence (d : slot) : list op := [OUse (V Smesh KMesh); ONew d KMat []; ONew SDcorr KMat [V Sbc KBc]].
Definition create_gradient (g : slot) : list op := [OUse (V Smesh KMesh); ONew g KMat []].
Definition create_laplacian : list op := [ONew SL KMat [upack]; ONew SLcorr KMat [V Sbc KBc]].
Definition create_convection (sh : shape) : list op :=
  loop (s_dim sh) (fun f => [ONew (Sq f) KVec [da f]]) ++ [ONew SN KMat [V Smesh KMesh; V Sbc KBc]] ++
  loop (s_dim sh) (fun f => [OGive SN KMat (Sq f) KVec]).

(** src/operators/createbn.cpp:19-88 *)
Definition bn_term (sh : shape) (X : slot) (term : Z) : list op :=
  [ONew Lright KMat (kept sh [V X KMat])] ++
  flat_map (fun _ => [ONew Ltemp KMat (kept sh [V X KMat; V Lright KMat]); ODrop Lright; OMove Lright Ltemp KMat]) (zrange 2 term).
Definition create_bnhead (sh : shape) (X : slot) (n : Z) (out : slot) : list op :=
  [ONew out KMat (kept sh [V X KMat])] ++
  (if n =? 1 then []
   else flat_map (fun term => bn_term sh X term ++ [OUse (V out KMat); ODrop Lright]) (zrange 2 (n + 1)) ++ [OLeave Lright; OLeave Ltemp]).

(** src/operators/createbn.cpp:91-122 *)
Definition create_bn (sh : shape) (X r mhead : slot) (n : Z) (out : slot) : list op :=
  create_bnhead sh X n out ++
  [ONew LMInv KVec []; OUse (V mhead KMat); ONew LRD KVec []; OUse (V r KMat); OUse (V out KMat); ODrop LRD; ODrop LMInv; OLeave LRD; OLeave LMInv].

(** src/operators/createbn.cpp:125-208 *)
Definition create_bn_m (sh : shape) (X m : slot) (n : Z) (out : slot) : list op :=
  [ONew out KMat (kept sh [V X KMat]); ONew LMInv KVec []; OUse (V m KMat); OUse (V out KMat)] ++
  (if n =? 1 then []
   else
     [ONew Lleft KMat (kept sh [V X KMat]); OUse (V LMInv KVec)] ++
     flat_map (fun term => bn_term sh Lleft term ++ [OUse (V LMInv KVec); OUse (V out KMat); ODrop Lright]) (zrange 2 (n + 1)) ++
     [ODrop Lleft; OLeave Lleft; OLeave Lright; OLeave Ltemp]) ++
  [OLeave LMInv].

(** applications/navierstokes/navierstokes.cpp:395-429 *)
Definition ns_nullspace (sh : shape) : list op :=
  if s_kspp sh then
    [ONew Lnsp KNsp []; OLink SDBNG KMat (V Lnsp KNsp); OLink SDBNG KMat (V Lnsp KNsp); ODrop Lnsp; OLeave Lnsp]
  else [OUse (V SDBNG KMat)].

(** applications/navierstokes/navierstokes.cpp:317-365 *)
Definition ns_operators (sh : shape) : list op :=
  create_divergence SD ++ create_gradient SG ++ create_laplacian ++ create_convection sh ++
  [ONew SA KMat (kept sh [V SL KMat])] ++
  create_bnhead sh SL (s_bn sh) LBN ++
  [ONew SBNG KMat (kept sh [V LBN KMat; V SG KMat]); ONew SDBNG KMat (kept sh [V SD KMat; V SBNG KMat])] ++
  ns_nullspace sh ++ [ODrop LBN; OLeave LBN].

(** applications/navierstokes/navierstokes.cpp:368-392; a copy of a vector of a
    DM holds the DM. [dp]: the DM of the pressure vector. *)
Definition ns_vectors (sh : shape) (dp : list path) : list op :=
  [OUse (V SsolU KVec); OUse (V SsolP KVec); ONew SdP KVec dp; ONew Sbc1 KVec [upack]; ONew Srhs1 KVec [upack]; ONew Srhs2 KVec dp] ++
  loop (s_conv sh) (fun i => [ONew (Sconv i) KVec [upack]]) ++
  loop (s_diff sh) (fun i => [ONew (Sdiff i) KVec [upack]]).

(** src/misc/probes.cpp:57-81, 163-222, 267-310, 332-486, 607-645 *)
Definition probe_init (sh : shape) (i : Z) : list op :=
  match nthZ (s_probes sh) i with
  | Some (PVolume f sum) =>
      [ONull (SpView i); ONull (SpIsP i); ONull (SpIsN i); ONull (SpDvec i)] ++
      when (s_root sh)
        ([ONew Lv2 KView []] ++ loop 3 (fun _ => [ONew Lt2 KVec []; OUse (V Lt2 KVec); OUse (V Lv2 KView); ODrop Lt2; OLeave Lt2]) ++
         [ODrop Lv2; OLeave Lv2]) ++
      [ONew (SpView i) KView []; OUse (da f); ONew (SpIsP i) KIs []; ONew (SpIsN i) KIs []; OUse (V (SpIsN i) KIs)]
  | Some (PPoint f) => [ONull (SpView i); ONew (SpView i) KView []; ONew (SpSvec i) KVec [da f]]
  | None => []
  end.

(** src/misc/probes.cpp:98-111, 225-237, 648-662 *)
Definition probe_destroy (sh : shape) (i : Z) : list op :=
  match nthZ (s_probes sh) i with
  | Some (PVolume f sum) => [ODrop (SpView i); ODrop (SpIsP i); ODrop (SpIsN i); ODrop (SpDvec i)]
  | Some (PPoint f) => [ODrop (SpView i); ODrop (SpSvec i)]
  | None => []
  end.

(** src/misc/probes.cpp:114-148, 489-526, 665-687 *)
Definition probe_monitor (sh : shape) (i : Z) : list op :=
  match nthZ (s_probes sh) i with
  | Some (PVolume f sum) =>
      (if f =? 3 then [OUse (da 3); OUse (V SsolP KVec)] else [OUse upack; OUse (V SsolU KVec)] ++ access (s_dim sh) ++ [OUse (V (Lacc f) KVec)]) ++
      [OUse (V (SpIsP i) KIs); ONew Lsub KVec []] ++ when sum [ONewIf (SpDvec i) KVec; OUse (V (SpDvec i) KVec)] ++
      [OUse (V Lsub KVec); OUse (V (SpView i) KView); ODrop Lsub; OLeave Lsub] ++
      when (negb (f =? 3)) (restore (s_dim sh))
  | Some (PPoint f) =>
      (if f =? 3 then [OUse (da 3); OUse (V SsolP KVec)] else [OUse upack; OUse (V SsolU KVec)] ++ access (s_dim sh) ++ [OUse (V (Lacc f) KVec)]) ++
      [OUse (da f); OUse (V (SpSvec i) KVec); OUse (V (SpView i) KView)] ++
      when (negb (f =? 3)) (restore (s_dim sh))
  | None => []
  end.

(** src/solution/solutionsimple.cpp:229-259 and
    applications/navierstokes/navierstokes.cpp:618-634, 797-815 *)
Definition ns_write_solution (sh : shape) : list op :=
  [OUse upack; OUse (V SsolU KVec)] ++ access (s_dim sh) ++
  io_vecs (map (fun f => V (Lacc f) KVec) (zrange 0 (s_dim sh)) ++ [V SsolP KVec]) ++ restore (s_dim sh) ++
  [ONew LvTime KView []; ODrop LvTime; OLeave LvTime].

(** applications/navierstokes/navierstokes.cpp:637-688 *)
Definition ns_write_restart (sh : shape) (missing : bool) (solution : list op) : list op :=
  when missing solution ++
  [ONew LvRest KView []] ++
  loop (s_conv sh) (fun i => [OUse (V (Sconv i) KVec); OUse (V LvRest KView)]) ++
  loop (s_diff sh) (fun i => [OUse (V (Sdiff i) KVec); OUse (V LvRest KView)]) ++
  [ODrop LvRest; OLeave LvRest].

(** applications/navierstokes/navierstokes.cpp:691-746, 818-837,
    src/solution/solutionsimple.cpp:262-292 *)
Definition ns_read_restart (sh : shape) : list op :=
  [OUse upack; OUse (V SsolU KVec)] ++ access (s_dim sh) ++
  io_vecs (map (fun f => V (Lacc f) KVec) (zrange 0 (s_dim sh)) ++ [V SsolP KVec]) ++ restore (s_dim sh) ++
  [ONew LvTime KView []; ODrop LvTime; OLeave LvTime] ++
  [ONew LvRest KView []] ++
  loop (s_conv sh) (fun i => [OUse (V (Sconv i) KVec); OUse (V LvRest KView)]) ++
  loop (s_diff sh) (fun i => [OUse (V (Sdiff i) KVec); OUse (V LvRest KView)]) ++
  [ODrop LvRest; OLeave LvRest] ++ ghost_ics.

Definition nprobes (sh : shape) : Z := lenZ (s_probes sh).

(** applications/navierstokes/navierstokes.cpp:93-204, with the functions the
    coupled solver overrides. *)
Definition ns_init_with (sh : shape) (operators vectors : list op) : list op :=
  mesh_init sh ++ mesh_write sh ++ bc_init sh ++ solution_init ++ set_ics sh ++ ghost_ics ++
  solver_init (s_kspv sh) SvKsp ++ solver_init (s_kspp sh) SpKsp ++
  operators ++ vectors ++
  set_matrix (s_kspv sh) SvKsp SA ++ set_matrix (s_kspp sh) SpKsp SDBNG ++
  loop (nprobes sh) (probe_init sh) ++ [ONew SsolversV KView []].

Definition ns_init (sh : shape) : list op := ns_init_with sh (ns_operators sh) (ns_vectors sh [da 3]).

(** applications/navierstokes/navierstokes.cpp:207-237 *)
Definition ns_io (sh : shape) : list op := if s_restart sh then ns_read_restart sh else ns_write_solution sh.

(** applications/navierstokes/navierstokes.cpp:432-521,
    src/operators/createconvection.cpp:199-339 *)
Definition ns_rhs_velocity (sh : shape) : list op :=
  [OUse (V SG KMat); OUse (V SsolP KVec); OUse (V Srhs1 KVec); OUse (V SsolU KVec)] ++
  loop (s_conv sh) (fun i => [OUse (V (Sconv i) KVec)]) ++
  when (0 <? s_conv sh) ([OUse (V SN KMat); OUse (V (Sconv 0) KVec); OUse upack] ++ access (s_dim sh) ++
                         loop (s_dim sh) (fun f => [OUse (da f); OUse (V (Lacc f) KVec)]) ++ restore (s_dim sh)) ++
  loop (s_diff sh) (fun i => [OUse (V (Sdiff i) KVec)]) ++
  when (0 <? s_diff sh) [OUse (V SL KMat); OUse (V SLcorr KMat); OUse (V (Sdiff 0) KVec)] ++
  [OUse (V Sbc KBc); OUse (V SLcorr KMat); OUse (V Sbc1 KVec); OUse (V Srhs1 KVec)].

(** applications/navierstokes/navierstokes.cpp:524-615 *)
Definition ns_solve_velocity (sh : shape) : list op := solve (s_kspv sh) SvKsp SsolU Srhs1.
Definition ns_rhs_poisson : list op :=
  [OUse (V SD KMat); OUse (V SsolU KVec); OUse (V Srhs2 KVec); OUse (V SDcorr KMat); OUse (V Srhs2 KVec)].
Definition ns_solve_poisson (sh : shape) : list op := solve (s_kspp sh) SpKsp SdP Srhs2.
Definition ns_project : list op :=
  [OUse (V SBNG KMat); OUse (V SdP KVec); OUse (V Srhs1 KVec); OUse (V SsolU KVec); OUse (V SsolP KVec); OUse (V SdP KVec)].
Definition ghost_update : list op := [OUse (V Sbc KBc); OUse (V SsolU KVec)].

(** applications/navierstokes/navierstokes.cpp:240-266 *)
Definition ns_advance (sh : shape) : list op :=
  ns_rhs_velocity sh ++ ns_solve_velocity sh ++ ns_rhs_poisson ++ ns_solve_poisson sh ++ ns_project ++ ghost_update.

(** applications/navierstokes/navierstokes.cpp:269-308, 766-794, 840-856,
    src/io/io.cpp:274-289 *)
Definition ns_write_with (sh : shape) (e : event) (info solution restart : list op) : list op :=
  info ++
  when (e_save e) (solution ++ [ONew LvLog KView []; ODrop LvLog; OLeave LvLog]) ++
  when (e_restart e) restart ++
  loop (nprobes sh) (fun i => when (e_due e i) (probe_monitor sh i)).

Definition ns_info (sh : shape) : list op := [OUse (V SsolversV KView)] ++ when (s_kspv sh) [OUse (V SvKsp KKsp)] ++ when (s_kspp sh) [OUse (V SpKsp KKsp)].
Definition ns_write (sh : shape) (e : event) : list op :=
  ns_write_with sh e (ns_info sh) (ns_write_solution sh) (ns_write_restart sh (e_missing e) (ns_write_solution sh)).

(** applications/navierstokes/navierstokes.cpp:38-91 *)
Definition ns_destroy (sh : shape) : list op :=
  [ODrop SdP; ODrop Sbc1; ODrop Srhs1; ODrop Srhs2] ++
  loop (s_conv sh) (fun i => [ODrop (Sconv i)]) ++ loop (s_diff sh) (fun i => [ODrop (Sdiff i)]) ++
  [ODrop SA; ODrop SDBNG; ODrop SBNG; ODrop SN; ODrop SG; ODrop SD; ODrop SDcorr; ODrop SL; ODrop SLcorr] ++
  loop (nprobes sh) (probe_destroy sh) ++
  [ODrop SvKsp; ODrop SpKsp; ODrop SsolU; ODrop SsolP; ODrop Ssol; ODrop Sbc; ODrop Smesh; ODrop SsolversV].

(** src/body/bodypack.cpp:55-158, src/body/singlebodypoints.cpp:27-93; and the
    destructors, src/body/bodypack.cpp:21-33, src/body/singlebody.cpp:39-51. *)
Definition bodies_init (sh : shape) : list op :=
  loop (s_bodies sh) (fun b => [ONew (SbDa b) KDm []]) ++ [ONew SbPack KPack []] ++
  loop (s_bodies sh) (fun b => [OLink SbPack KPack (V (SbDa b) KDm)]).
Definition bodies_reset (sh : shape) : list op := [ODrop SbPack] ++ loop (s_bodies sh) (fun b => [ODrop (SbDa b)]).

(** src/body/bodypack.cpp:298-324 *)
Definition avg_forces (sh : shape) (f : slot) : list op :=
  [OUse (V SbPack KPack); OUse (V f KVec)] ++ loop (s_bodies sh) (fun b => [ONew (Lbacc b) KVec []]) ++
  loop (s_bodies sh) (fun b => [OUse (V (SbDa b) KDm); OUse (V (Lbacc b) KVec)]) ++
  loop (s_bodies sh) (fun b => [ODrop (Lbacc b); OLeave (Lbacc b)]).

(** * The coupled immersed-boundary solver (applications/ibpm) *)

(** applications/ibpm/ibpm.cpp:242-283 *)
Definition co_nullspace (sh : shape) : list op :=
  if s_kspp sh then
    [ONew Ln KVec []; OUse (V (SisDE 0) KIs); ONew Lphi KVec []; OUse (V Lphi KVec); ODrop Lphi;
     ONew Lnsp KNsp [V Ln KVec]; OLink SDBNG KMat (V Lnsp KNsp); OLink SDBNG KMat (V Lnsp KNsp);
     ODrop Ln; ODrop Lnsp; OLeave Ln; OLeave Lphi; OLeave Lnsp]
  else [OUse (V SDBNG KMat)].

(** applications/ibpm/ibpm.cpp:100-203 *)
Definition co_operators (sh : shape) : list op :=
  create_divergence (LDE 0) ++ create_gradient (LGH 0) ++ create_laplacian ++ create_convection sh ++
  [ONew SA KMat (kept sh [V SL KMat]);
   ONew LR KMat []; ONew LRD KVec []; ONew LMHat KMat []; ONew LMD KVec [];
   OUse (V SbPack KPack); ONew (LDE 1) KMat []; ONew (LGH 1) KMat (kept sh [V (LDE 1) KMat]);
   OUse (V (LDE 1) KMat); OUse (V LRD KVec); OUse (V LMD KVec); ODrop LRD; ODrop LMD; ODrop LR; ODrop LMHat;
   OUse (V (LGH 1) KMat);
   ONew LR KNest [V (LGH 0) KMat; V (LGH 1) KMat]; ONew SG KMat []; OUse (V LR KNest); ODrop LR; ODrop (LGH 0); ODrop (LGH 1);
   ONew LR KNest [V (LDE 0) KMat; V (LDE 1) KMat]; ONew SD KMat []; OUse (V LR KNest);
   ONew (SisDE 0) KIs []; ONew (SisDE 1) KIs []; OUse (V (SisDE 0) KIs); OUse (V (SisDE 1) KIs);
   ODrop LR; ODrop (LDE 0); ODrop (LDE 1)] ++
  create_bnhead sh SL (s_bn sh) LBN ++
  [ONew SBNG KMat (kept sh [V LBN KMat; V SG KMat]); ONew SDBNG KMat (kept sh [V SD KMat; V SBNG KMat])] ++
  co_nullspace sh ++ [ODrop LBN; OLeave LBN; OLeave LR; OLeave LMHat; OLeave LRD; OLeave LMD;
                      OLeave (LGH 0); OLeave (LGH 1); OLeave (LDE 0); OLeave (LDE 1)].

(** applications/ibpm/ibpm.cpp:206-239 *)
Definition co_vectors (sh : shape) : list op :=
  [OUse (V SG KMat); ONew SP KVec []; OMove Lswap SsolP KVec; OMove SsolP SP KVec; OMove SP Lswap KVec;
   OUse (V SP KVec); OUse (V (SisDE 0) KIs); ONew Lsub KVec []; OUse (V Lsub KVec); OUse (V SP KVec); ODrop Lsub; OLeave Lsub] ++
  ns_vectors sh [].

(** applications/ibpm/ibpm.h:26, ibpm.cpp:54-82 *)
Definition co_ctor : list op := ns_ctor ++ [ONull SbPack].
Definition co_init (sh : shape) : list op :=
  bodies_init sh ++ ns_init_with sh (co_operators sh) (co_vectors sh) ++ [ONew SforcesV KView []].

(** applications/ibpm/ibpm.cpp:316-384: solution->pGlobal is P while the
    files are written or read. *)
Definition with_pressure (l : list op) : list op :=
  [OMove Lswap SsolP KVec; OMove SsolP SP KVec] ++ l ++ [OMove SP SsolP KVec; OMove SsolP Lswap KVec].
Definition force_part (l : list op) : list op :=
  [OUse (V SsolP KVec); OUse (V (SisDE 1) KIs); ONew Lsub KVec []] ++ l ++ [ODrop Lsub; OLeave Lsub].
Definition co_write_solution (sh : shape) : list op := with_pressure (ns_write_solution sh).
Definition co_write_restart (sh : shape) (missing : bool) : list op :=
  ns_write_restart sh missing (co_write_solution sh) ++ force_part (io_vecs [V Lsub KVec]).
Definition co_read_restart (sh : shape) : list op :=
  with_pressure (ns_read_restart sh) ++ force_part (io_vecs [V Lsub KVec]).
Definition co_io (sh : shape) : list op := if s_restart sh then co_read_restart sh else co_write_solution sh.

(** applications/ibpm/ibpm.cpp:286-313 *)
Definition co_rhs_poisson : list op :=
  [OUse (V SD KMat); OUse (V SsolU KVec); OUse (V Srhs2 KVec); OUse (V (SisDE 0) KIs); ONew Lsub KVec [];
   OUse (V SDcorr KMat); OUse (V Lsub KVec); ODrop Lsub; OLeave Lsub; OUse (V Srhs2 KVec)].
Definition co_advance (sh : shape) : list op :=
  ns_rhs_velocity sh ++ ns_solve_velocity sh ++ co_rhs_poisson ++ ns_solve_poisson sh ++ ns_project ++ ghost_update.

(** applications/ibpm/ibpm.cpp:85-97, 387-423 *)
Definition co_write (sh : shape) (e : event) : list op :=
  ns_write_with sh e (ns_info sh) (co_write_solution sh) (co_write_restart sh (e_missing e)) ++
  force_part (avg_forces sh Lsub) ++ [OUse (V SforcesV KView)].

(** applications/ibpm/ibpm.cpp:37-52 *)
Definition co_destroy (sh : shape) : list op :=
  bodies_reset sh ++ [ODrop (SisDE 0); ODrop (SisDE 1); OUse (V SP KVec); ODrop SP; ODrop SforcesV] ++ ns_destroy sh.

(** * The decoupled solver and the one for moving bodies *)

(** applications/decoupledibpm/decoupledibpm.cpp:149-216 *)
Definition de_operators (sh : shape) : list op :=
  [ONew LR KMat []; ONew LRD KVec []; OUse (V LR KMat); ONew LMHat KMat []; ONew LMD KVec []; OUse (V LMHat KMat);
   OUse (V SbPack KPack); ONew SE KMat []; ONew SH KMat (kept sh [V SE KMat]);
   OUse (V SE KMat); OUse (V LRD KVec); OUse (V LMD KVec)] ++
  create_bnhead sh SL (s_bn sh) LBN ++
  [ONew SBNH KMat (kept sh [V LBN KMat; V SH KMat]); ONew SEBNH KMat (kept sh [V SE KMat; V SBNH KMat]);
   ODrop LRD; ODrop LMD; ODrop LMHat; ODrop LR; ODrop LBN; OLeave LRD; OLeave LMD; OLeave LMHat; OLeave LR; OLeave LBN].

(** applications/decoupledibpm/decoupledibpm.cpp:219-230 *)
Definition de_vectors : list op := [ONew Sf KVec [V SbPack KPack]; ONew Sdf KVec [V SbPack KPack]; ONew Srhsf KVec [V SbPack KPack]].

(** applications/decoupledibpm/decoupledibpm.h:26, decoupledibpm.cpp:57-102 *)
Definition de_ctor : list op := ns_ctor ++ [ONull SbPack; ONull SfKsp].
Definition de_init (sh : shape) : list op :=
  ns_init sh ++ bodies_init sh ++ solver_init (s_kspf sh) SfKsp ++ de_operators sh ++ de_vectors ++
  set_matrix (s_kspf sh) SfKsp SEBNH ++ [ONew SforcesV KView []].

(** applications/decoupledibpm/decoupledibpm.cpp:319-380 *)
Definition force_file : list op := [ONew LvF KView []; OUse (V Sf KVec); OUse (V LvF KView); ODrop LvF; OLeave LvF].
Definition de_write_restart (sh : shape) (missing : bool) : list op := ns_write_restart sh missing (ns_write_solution sh) ++ force_file.
Definition de_io (sh : shape) : list op := if s_restart sh then ns_read_restart sh ++ force_file else ns_write_solution sh.

(** applications/decoupledibpm/decoupledibpm.cpp:105-131, 233-316 *)
Definition de_advance_with (sh : shape) (rhs : list op) : list op :=
  ns_rhs_velocity sh ++ [OUse (V SH KMat); OUse (V Sf KVec); OUse (V Srhs1 KVec)] ++ ns_solve_velocity sh ++
  rhs ++ solve (s_kspf sh) SfKsp Sdf Srhsf ++ [OUse (V SBNH KMat); OUse (V Sdf KVec); OUse (V SsolU KVec)] ++
  ns_rhs_poisson ++ ns_solve_poisson sh ++ ns_project ++ [OUse (V Sf KVec); OUse (V Sdf KVec)] ++ ghost_update.
Definition de_rhs_forces : list op := [OUse (V SE KMat); OUse (V SsolU KVec); OUse (V Srhsf KVec)].
Definition de_advance (sh : shape) : list op := de_advance_with sh de_rhs_forces.

(** applications/decoupledibpm/decoupledibpm.cpp:134-146, 383-453 *)
Definition de_write (sh : shape) (e : event) : list op :=
  ns_write_with sh e (ns_info sh ++ when (s_kspf sh) [OUse (V SfKsp KKsp)]) (ns_write_solution sh) (de_write_restart sh (e_missing e)) ++
  avg_forces sh Sf ++ [OUse (V SforcesV KView)].

(** applications/decoupledibpm/decoupledibpm.cpp:36-55 *)
Definition de_destroy (sh : shape) : list op :=
  [ODrop SfKsp] ++ bodies_reset sh ++
  [ODrop Sdf; ODrop Sf; ODrop Srhsf; ODrop SH; ODrop SE; ODrop SEBNH; ODrop SBNH; ODrop SforcesV] ++ ns_destroy sh.

(** applications/rigidkinematics/rigidkinematics.cpp:34-66 *)
Definition rk_init (sh : shape) : list op := de_init sh ++ [ONew SUB KVec [V SbPack KPack]].
Definition rk_destroy (sh : shape) : list op := de_destroy sh ++ [ODrop SUB].

(** src/body/singlebodypoints.cpp:252-287,
    applications/rigidkinematics/rigidkinematics.cpp:105-116, 162-183 *)
Definition write_bodies (sh : shape) : list op :=
  loop (s_bodies sh) (fun _ => [ONew LvBody KView []; OUse (V LvBody KView); ODrop LvBody; OLeave LvBody]).
Definition rk_io (sh : shape) : list op := de_io sh ++ write_bodies sh.

(** applications/rigidkinematics/rigidkinematics.cpp:119-159 *)
Definition move_bodies (sh : shape) : list op :=
  [OUse (V SUB KVec); OUse (V Smesh KMesh); ODrop SE; ODrop SH; ODrop SBNH; ODrop SEBNH] ++
  de_operators sh ++ set_matrix (s_kspf sh) SfKsp SEBNH.
Definition rk_rhs_forces : list op := de_rhs_forces ++ [OUse (V SUB KVec)].

(** applications/rigidkinematics/rigidkinematics.cpp:69-102 *)
Definition rk_advance (sh : shape) : list op := move_bodies sh ++ de_advance_with sh rk_rhs_forces.
Definition rk_write (sh : shape) (e : event) : list op := de_write sh e ++ when (e_save e) (write_bodies sh).

(** * Runs *)

(** The four solvers. *)
Inductive app := NavierStokes | Coupled | Decoupled | Moving.

Definition constructor (a : app) : list op :=
  match a with NavierStokes => ns_ctor | Coupled => co_ctor | Decoupled | Moving => de_ctor end.
Definition init (a : app) (sh : shape) : list op :=
  match a with NavierStokes => ns_init sh | Coupled => co_init sh | Decoupled => de_init sh | Moving => rk_init sh end.
Definition io_initial (a : app) (sh : shape) : list op :=
  match a with NavierStokes => ns_io sh | Coupled => co_io sh | Decoupled => de_io sh | Moving => rk_io sh end.
Definition advance (a : app) (sh : shape) : list op :=
  match a with NavierStokes => ns_advance sh | Coupled => co_advance sh | Decoupled => de_advance sh | Moving => rk_advance sh end.
Definition write (a : app) (sh : shape) (e : event) : list op :=
  match a with NavierStokes => ns_write sh e | Coupled => co_write sh e | Decoupled => de_write sh e | Moving => rk_write sh e end.
Definition destroy (a : app) (sh : shape) : list op :=
  match a with NavierStokes => ns_destroy sh | Coupled => co_destroy sh | Decoupled => de_destroy sh | Moving => rk_destroy sh end.

(** The main functions (applications/navierstokes/main.cpp:45-77 and the others)
    up to the loop, one iteration of the loop, and all of it. *)
Definition start (a : app) (sh : shape) : list op := constructor a ++ init a sh ++ io_initial a sh.
Definition step (a : app) (sh : shape) (e : event) : list op := advance a sh ++ write a sh e.
Definition program (a : app) (sh : shape) (es : list event) : list op :=
  start a sh ++ flat_map (step a sh) es ++ destroy a sh.
