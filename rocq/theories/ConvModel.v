(** Model of the convection operator (src/operators/createconvection.cpp): a
    shell matrix whose context keeps one ghosted local array per component on
    every rank. *)
From Verif Require Import Prelude ZSum RSum TypesModel GridModel IndexModel BoundaryModel OperatorModel IndexSpec BoundarySpec OperatorSpec MatModel.
Local Open Scope R_scope.

(** The flux[f][k][j][i] arrays that DMDAVecGetArrayRead gives on one rank.
    Reading outside of the ghosted box of the rank is undefined behaviour. The
    array is stored in the order of [ghosted_points]; in 2D the k index is
    always 0. *)
Definition flux := Z -> Z -> Z -> Z -> res R.
Definition flux_of (m : mesh) (D : dec) (r : Z) (q : list (list R)) : flux := fun f i j k =>
  do a <- rd q f;
  match getLocalIndex (m_dim m) D f r (mkSt k j i 0) with Ok id => rd a id | _ => UB end.

(** flux[f][k][j][i] *)
Definition at_ (q : flux) (f i j k : Z) : res R := q f i j k.
(** (a + b) / 2.0 *)
Definition avg (a b : R) : R := (a + b) / 2.

(** createconvection.cpp:40-63. In 2D the arrays are flux[f][j][i]. *)
Definition kernelU2 (m : mesh) (q : flux) (i j k : Z) : res R :=
  do uSelf <- at_ q 0 i j k;
  do a <- at_ q 0 (i - 1) j k; let uW := avg uSelf a in
  do a <- at_ q 0 (i + 1) j k; let uE := avg uSelf a in
  do a <- at_ q 0 i (j - 1) k; let uS := avg uSelf a in
  do a <- at_ q 0 i (j + 1) k; let uN := avg uSelf a in
  do a <- at_ q 1 i (j - 1) k; do b <- at_ q 1 (i + 1) (j - 1) k; let vS := avg a b in
  do a <- at_ q 1 i j k; do b <- at_ q 1 (i + 1) j k; let vN := avg a b in
  do dx <- m_dL m 0 0 i; do dy <- m_dL m 0 1 j;
  Ok ((uE * uE - uW * uW) / dx + (vN * uN - vS * uS) / dy).

(** createconvection.cpp:66-89 *)
Definition kernelV2 (m : mesh) (q : flux) (i j k : Z) : res R :=
  do vSelf <- at_ q 1 i j k;
  do a <- at_ q 0 (i - 1) j k; do b <- at_ q 0 (i - 1) (j + 1) k; let uW := avg a b in
  do a <- at_ q 0 i j k; do b <- at_ q 0 i (j + 1) k; let uE := avg a b in
  do a <- at_ q 1 (i - 1) j k; let vW := avg vSelf a in
  do a <- at_ q 1 (i + 1) j k; let vE := avg vSelf a in
  do a <- at_ q 1 i (j - 1) k; let vS := avg vSelf a in
  do a <- at_ q 1 i (j + 1) k; let vN := avg vSelf a in
  do dx <- m_dL m 1 0 i; do dy <- m_dL m 1 1 j;
  Ok ((uE * vE - uW * vW) / dx + (vN * vN - vS * vS) / dy).

(** createconvection.cpp:92-124 *)
Definition kernelU3 (m : mesh) (q : flux) (i j k : Z) : res R :=
  do uSelf <- at_ q 0 i j k;
  do a <- at_ q 0 (i - 1) j k; let uW := avg uSelf a in
  do a <- at_ q 0 (i + 1) j k; let uE := avg uSelf a in
  do a <- at_ q 0 i (j - 1) k; let uS := avg uSelf a in
  do a <- at_ q 0 i (j + 1) k; let uN := avg uSelf a in
  do a <- at_ q 0 i j (k - 1); let uB := avg uSelf a in
  do a <- at_ q 0 i j (k + 1); let uF := avg uSelf a in
  do a <- at_ q 1 i (j - 1) k; do b <- at_ q 1 (i + 1) (j - 1) k; let vS := avg a b in
  do a <- at_ q 1 i j k; do b <- at_ q 1 (i + 1) j k; let vN := avg a b in
  do a <- at_ q 2 i j (k - 1); do b <- at_ q 2 (i + 1) j (k - 1); let wB := avg a b in
  do a <- at_ q 2 i j k; do b <- at_ q 2 (i + 1) j k; let wF := avg a b in
  do dx <- m_dL m 0 0 i; do dy <- m_dL m 0 1 j; do dz <- m_dL m 0 2 k;
  Ok ((uE * uE - uW * uW) / dx + (vN * uN - vS * uS) / dy + (wF * uF - wB * uB) / dz).

(** createconvection.cpp:127-160 *)
Definition kernelV3 (m : mesh) (q : flux) (i j k : Z) : res R :=
  do vSelf <- at_ q 1 i j k;
  do a <- at_ q 0 (i - 1) j k; do b <- at_ q 0 (i - 1) (j + 1) k; let uW := avg a b in
  do a <- at_ q 0 i j k; do b <- at_ q 0 i (j + 1) k; let uE := avg a b in
  do a <- at_ q 1 (i - 1) j k; let vW := avg vSelf a in
  do a <- at_ q 1 (i + 1) j k; let vE := avg vSelf a in
  do a <- at_ q 1 i (j - 1) k; let vS := avg vSelf a in
  do a <- at_ q 1 i (j + 1) k; let vN := avg vSelf a in
  do a <- at_ q 1 i j (k - 1); let vB := avg vSelf a in
  do a <- at_ q 1 i j (k + 1); let vF := avg vSelf a in
  do a <- at_ q 2 i j (k - 1); do b <- at_ q 2 i (j + 1) (k - 1); let wB := avg a b in
  do a <- at_ q 2 i j k; do b <- at_ q 2 i (j + 1) k; let wF := avg a b in
  do dx <- m_dL m 1 0 i; do dy <- m_dL m 1 1 j; do dz <- m_dL m 1 2 k;
  Ok ((uE * vE - uW * vW) / dx + (vN * vN - vS * vS) / dy + (wF * vF - wB * vB) / dz).

(** createconvection.cpp:163-195 *)
Definition kernelW3 (m : mesh) (q : flux) (i j k : Z) : res R :=
  do wSelf <- at_ q 2 i j k;
  do a <- at_ q 0 (i - 1) j k; do b <- at_ q 0 (i - 1) j (k + 1); let uW := avg a b in
  do a <- at_ q 0 i j k; do b <- at_ q 0 i j (k + 1); let uE := avg a b in
  do a <- at_ q 1 i (j - 1) k; do b <- at_ q 1 i (j - 1) (k + 1); let vS := avg a b in
  do a <- at_ q 1 i j k; do b <- at_ q 1 i j (k + 1); let vN := avg a b in
  do a <- at_ q 2 (i - 1) j k; let wW := avg wSelf a in
  do a <- at_ q 2 (i + 1) j k; let wE := avg wSelf a in
  do a <- at_ q 2 i (j - 1) k; let wS := avg wSelf a in
  do a <- at_ q 2 i (j + 1) k; let wN := avg wSelf a in
  do a <- at_ q 2 i j (k - 1); let wB := avg wSelf a in
  do a <- at_ q 2 i j (k + 1); let wF := avg wSelf a in
  do dx <- m_dL m 2 0 i; do dy <- m_dL m 2 1 j; do dz <- m_dL m 2 2 k;
  Ok ((uE * wE - uW * wW) / dx + (vN * wN - vS * wS) / dy + (wF * wF - wB * wB) / dz).

(** The kernel used for the points of component f (createconvection.cpp:237-245
    and 305-321). *)
Definition kernel_of (m : mesh) (f : Z) : flux -> Z -> Z -> Z -> res R :=
  if (m_dim m =? 2)%Z then (if (f =? 0)%Z then kernelU2 m else kernelV2 m)
  else (if (f =? 0)%Z then kernelU3 m else if (f =? 1)%Z then kernelV3 m else kernelW3 m).

(** DMCompositeScatterArray (createconvection.cpp:217, 285) on the array of one
    component and one rank: DMDA local vectors with a box stencil of width 1
    (cartesianmesh.cpp:501-519). Entries inside the domain, and entries outside
    of it in periodic directions only, receive the value of (the image of) the
    point; the others keep their contents (DM_BOUNDARY_GHOSTED). *)
Definition pos_eqb (a b : Z * pt) : bool :=
  let '(f, (i, j, k)) := a in let '(f', (i', j', k')) := b in
  ((f =? f') && (i =? i') && (j =? j') && (k =? k'))%Z.
Definition scatter (m : mesh) (D : dec) (x : vec) (r f : Z) (old : list R) : res (list R) :=
  mapM (fun iq =>
    let '(id, q) := iq in
    if has_image (m_n m f) (fun d => m_periodic m d d) q
    then match findpos pos_eqb (f, image (m_n m f) q) (packed_layout (m_dim m) D) 0 with
         | Some g => Ok (x g) | None => UB end
    else rd old id)
    (combine (zrange 0 (lenZ (ghosted_points (m_dim m) D f r))) (ghosted_points (m_dim m) D f r)).

(** singleboundarybase.cpp:165-178 *)
Definition copyValues2LocalVec (a : list R) (sb : sbd) : res (list R) :=
  foldM (fun a kp => wr a (gi_lcl (snd kp)) (gi_value (snd kp))) (sb_points sb) a.

(** createconvection.cpp:217-221 / 285-289 on one rank: scatter, then
    copyValues2LocalVecs (boundarysimple.cpp:128-146). *)
Definition fill (m : mesh) (D : dec) (B : boundary) (x : vec) (r : Z) (q : list (list R)) : res (list (list R)) :=
  mapM (fun f =>
    do old <- rd q f;
    do a <- scatter m D x r f old;
    do row <- rd (B r) f;
    foldM copyValues2LocalVec row a) (zrange 0 (m_dim m)).

(** The context: for every rank, for every component, the local array. *)
Definition cctx := list (list (list R)).
(** NonLinearCtx (createconvection.cpp:24-37): DMCreateLocalVector gives zero
    entries. *)
Definition createConvection (m : mesh) (D : dec) : cctx :=
  map (fun r => map (fun f => map (fun _ => 0) (ghosted_points (m_dim m) D f r)) (zrange 0 (m_dim m))) (zrange 0 (nranks D)).

(** ConvectionMult2D / ConvectionMult3D (createconvection.cpp:199-263,
    267-339): every rank fills its arrays and computes its own points; the
    results are the rank's part of y. *)
Definition vec_of (l : list R) : vec := fun i => match nthZ l i with Some v => v | None => 0 end.
Definition convectionMult (m : mesh) (D : dec) (C : cctx) (B : boundary) (x : vec) : res (vec * cctx) :=
  do C' <- mapM (fun r => do q <- rd C r; fill m D B x r q) (zrange 0 (nranks D));
  do y <- mapM (fun r =>
      do q <- rd C' r;
      mapM (fun f => mapM (fun p : pt => let '(i, j, k) := p in kernel_of m f (flux_of m D r q) i j k) (local_points D f r))
           (zrange 0 (m_dim m)))
    (zrange 0 (nranks D));
  Ok (vec_of (concat (map (@concat R) y)), C').

(** A sequence of applications, as the solver makes them. *)
Definition conv_calls (m : mesh) (D : dec) (C : cctx) (calls : list (boundary * vec)) : res cctx :=
  foldM (fun C bx => do (y, C') <- convectionMult m D C (fst bx) (snd bx); Ok C') calls C.

(** The operator as used by the time stepper (navierstokes.cpp:459-466): the
    result of one application with a new context. Theorem [conv_no_memory]
    justifies leaving out the context there. *)
Definition convection (m : mesh) (D : dec) (B : boundary) (x : vec) : res vec :=
  do (y, C') <- convectionMult m D (createConvection m D) B x; Ok y.
