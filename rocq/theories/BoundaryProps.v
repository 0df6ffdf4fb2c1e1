(** C11 - C13: ghost points and their equations. *)
From Verif Require Import Prelude ZSum RSum TypesModel GridModel GridSpec IndexModel IndexSpec
  BoundaryModel BoundarySpec BoundaryProof ExampleSetup.
Local Open Scope R_scope.

(** C11. The ghost list of rank r: one entry for each ghost point whose
    interior neighbour is owned by r, and what is stored in it. *)
Theorem ghost_list : forall m D r loc f v ty,
  mesh_setup m D -> (0 <= f < m_dim m)%Z -> (0 <= loc < m_dim m * 2)%Z -> (0 <= r < nranks D)%Z ->
  ghosted_type ty ->
  let n := m_n m f in let d := loc_dir loc in
  exists sb, createSingleBoundary m D r loc f v ty = Ok sb /\
  NoDup (map fst (sb_points sb)) /\
  (forall s, In s (map fst (sb_points sb)) -> exists q, s = st_of q) /\
  (forall q, In (st_of q) (map fst (sb_points sb)) <->
             is_ghost n loc q /\ In (inner_of n loc q) (local_points D f r)) /\
  (forall q info, In (st_of q, info) (sb_points sb) ->
     let t := inner_of n loc q in
     gi_target info = st_of t /\
     nthZ (packed_layout (m_dim m) D) (gi_tid info) = Some (f, t) /\
     nthZ (ghosted_points (m_dim m) D f r) (gi_lcl info) = Some q /\
     gi_dL info = Rabs (crd m f d (pc q d) - crd m f d (pc t d)) /\ 0 < gi_dL info /\
     gi_area info = wid m f (perp0 d) (pc q (perp0 d)) * wid m f (perp1 d) (pc q (perp1 d))).
Proof.
  intros m D r loc f v ty Hs Hf Hl Hr Ht n d. apply setup_facts in Hs.
  eexists. split; [apply create_ok; auto|]. cbn [sb_points].
  split; [now apply gl_points_NoDup|]. split; [apply gl_points_keys|]. split; [intros; now apply gl_points_In|].
  intros q info Hin. destruct (gl_points_info m D r f loc q info Hs Hf Hl Hr Hin) as (A & B & C & E & G & H & I & _ & J & _).
  repeat split; assumption.
Qed.
Print Assumptions ghost_list.

(** Every ghost point of a boundary is handled by exactly one rank. *)
Theorem ghost_on_one_rank : forall m D loc f v ty q,
  mesh_setup m D -> (0 <= f < m_dim m)%Z -> (0 <= loc < m_dim m * 2)%Z -> ghosted_type ty ->
  is_ghost (m_n m f) loc q ->
  let has r := exists sb, createSingleBoundary m D r loc f v ty = Ok sb /\ In (st_of q) (map fst (sb_points sb)) in
  exists r, (0 <= r < nranks D)%Z /\ has r /\ forall r', (0 <= r' < nranks D)%Z -> has r' -> r' = r.
Proof.
  intros m D loc f v ty q Hs Hf Hl Ht Hg has. apply setup_facts in Hs.
  destruct (ghost_one_rank m D f loc q Hs Hf Hl Hg) as (r & Hr & A & U). exists r. split; auto. split.
  - eexists. split; [apply create_ok; auto|exact A].
  - intros r' Hr' (sb & E & H). rewrite create_ok in E by auto. injection E as <-. auto.
Qed.
Print Assumptions ghost_on_one_rank.

(** The boundary object is built for every table without NOBC entries, and its
    entry (f, loc) is the boundary of component f at location loc. *)
Theorem boundary_object : forall m D r types values,
  mesh_setup m D -> (0 <= r < nranks D)%Z ->
  (forall f loc, (0 <= f < m_dim m)%Z -> (0 <= loc < m_dim m * 2)%Z -> types f loc <> NOBC) ->
  exists bds, createBoundary m D r types values = Ok bds /\
  forall f loc, (0 <= f < m_dim m)%Z -> (0 <= loc < m_dim m * 2)%Z ->
  exists row sb, nthZ bds f = Some row /\ nthZ row loc = Some sb /\
    createSingleBoundary m D r loc f (values f loc) (types f loc) = Ok sb.
Proof. intros m D r types values Hs. exact (create_boundary_lemma m D r types values (setup_facts _ _ Hs)). Qed.
Print Assumptions boundary_object.

(** Updates never fail, whatever the history, and keep the set of ghosts. *)
Theorem updates_never_fail : forall m D r loc f v ty ops sb,
  mesh_setup m D -> (0 <= f < m_dim m)%Z -> (0 <= loc < m_dim m * 2)%Z -> (0 <= r < nranks D)%Z ->
  ghosted_type ty -> createSingleBoundary m D r loc f v ty = Ok sb ->
  exists sb', run_bops m D r ops sb = Ok sb' /\ map fst (sb_points sb') = map fst (sb_points sb).
Proof. intros m D r loc f v ty ops sb Hs. exact (run_keys m D r loc f v ty ops sb (setup_facts _ _ Hs)). Qed.
Print Assumptions updates_never_fail.

(** C12. Dirichlet: after any history that contains setGhostICs and ends with
    setGhostICs or updateGhostValues on vec, the wall value is v. *)
Theorem dirichlet_enforced : forall m D r loc f v sb pre o vec sb',
  mesh_setup m D -> (0 <= f < m_dim m)%Z -> (0 <= loc < m_dim m * 2)%Z -> (0 <= r < nranks D)%Z ->
  createSingleBoundary m D r loc f v DIRICHLET = Ok sb ->
  (exists v0, In (OpICs v0) (pre ++ [o])) -> (o = OpICs vec \/ o = OpVals vec) ->
  run_bops m D r (pre ++ [o]) sb = Ok sb' ->
  forall q info, In (st_of q, info) (sb_points sb') ->
  exists id, nthZ (packed_layout (m_dim m) D) id = Some (f, inner_of (m_n m f) loc q) /\
  (loc_dir loc = f -> gi_value info = v) /\
  (loc_dir loc <> f -> (gi_value info + vec id) / 2 = v).
Proof. intros m D r loc f v sb pre o vec sb' Hs. exact (dirichlet_lemma m D r loc f v sb pre o vec sb' (setup_facts _ _ Hs)). Qed.
Print Assumptions dirichlet_enforced.

(** The mirrored ghost: the average of ghost and neighbour is the value at the
    wall because the wall is midway (C03); for the normal component the ghost
    is on the wall. *)
(** C12. Neumann: the one-sided difference along the axis is v. *)
Theorem neumann_enforced : forall m D r loc f v sb pre o vec sb',
  mesh_setup m D -> (0 <= f < m_dim m)%Z -> (0 <= loc < m_dim m * 2)%Z -> (0 <= r < nranks D)%Z ->
  createSingleBoundary m D r loc f v NEUMANN = Ok sb ->
  (exists v0, In (OpICs v0) (pre ++ [o])) -> (o = OpICs vec \/ o = OpVals vec) ->
  run_bops m D r (pre ++ [o]) sb = Ok sb' ->
  forall q info, In (st_of q, info) (sb_points sb') ->
  let d := loc_dir loc in let t := inner_of (m_n m f) loc q in
  exists id, nthZ (packed_layout (m_dim m) D) id = Some (f, t) /\
  (gi_value info - vec id) / (crd m f d (pc q d) - crd m f d (pc t d)) = v.
Proof. intros m D r loc f v sb pre o vec sb' Hs. exact (neumann_lemma m D r loc f v sb pre o vec sb' (setup_facts _ _ Hs)). Qed.
Print Assumptions neumann_enforced.

(** C13. Convective: one updateEqs (with the old velocity) followed by
    updateGhostValues (with the new one), after any earlier history, is the
    explicit discrete advection equation at speed c. [gap] is the signed
    distance from the interior neighbour to the ghost. *)
Theorem convective_advects : forall m D r loc f c sb pre vold dt vnew sb1 sb2,
  mesh_setup m D -> (0 <= f < m_dim m)%Z -> (0 <= loc < m_dim m * 2)%Z -> (0 <= r < nranks D)%Z ->
  createSingleBoundary m D r loc f c CONVECTIVE = Ok sb ->
  dt <> 0 ->
  run_bops m D r pre sb = Ok sb1 ->
  run_bops m D r [OpEqs vold dt; OpVals vnew] sb1 = Ok sb2 ->
  forall q old new, In (st_of q, old) (sb_points sb1) -> In (st_of q, new) (sb_points sb2) ->
  let d := loc_dir loc in let t := inner_of (m_n m f) loc q in
  let gap := crd m f d (pc q d) - crd m f d (pc t d) in
  exists id, nthZ (packed_layout (m_dim m) D) id = Some (f, t) /\
  (d = f -> (gi_value new - gi_value old) / dt + c * ((gi_value old - vold id) / gap) = 0) /\
  (d <> f -> ((gi_value new + vnew id) / 2 - (gi_value old + vold id) / 2) / dt
                       + c * ((gi_value old - vold id) / gap) = 0).
Proof. intros m D r loc f c sb pre vold dt vnew sb1 sb2 Hs. exact (convective_lemma m D r loc f c sb pre vold dt vnew sb1 sb2 (setup_facts _ _ Hs)). Qed.
Print Assumptions convective_advects.

(** C13. Initially the convective ghost equals its interior neighbour. *)
Theorem convective_initial : forall m D r loc f c sb v0 sb',
  mesh_setup m D -> (0 <= f < m_dim m)%Z -> (0 <= loc < m_dim m * 2)%Z -> (0 <= r < nranks D)%Z ->
  createSingleBoundary m D r loc f c CONVECTIVE = Ok sb ->
  run_bops m D r [OpICs v0] sb = Ok sb' ->
  forall q info, In (st_of q, info) (sb_points sb') ->
  exists id, nthZ (packed_layout (m_dim m) D) id = Some (f, inner_of (m_n m f) loc q) /\ gi_value info = v0 id.
Proof. intros m D r loc f c sb v0 sb' Hs. exact (convective_ics m D r loc f c sb v0 sb' (setup_facts _ _ Hs)). Qed.
Print Assumptions convective_initial.

(** C13. The coefficient a0, which is baked into the assembled operators, is
    the same constant after every history. *)
Theorem a0_never_changes : forall m D r loc f v ty sb ops sb',
  mesh_setup m D -> (0 <= f < m_dim m)%Z -> (0 <= loc < m_dim m * 2)%Z -> (0 <= r < nranks D)%Z ->
  ghosted_type ty -> createSingleBoundary m D r loc f v ty = Ok sb ->
  (exists v0, In (OpICs v0) ops) -> run_bops m D r ops sb = Ok sb' ->
  forall q info, In (st_of q, info) (sb_points sb') ->
  gi_a0 info = match ty with NEUMANN => 1 | _ => if (loc_dir loc =? f)%Z then 0 else -1 end.
Proof. intros m D r loc f v ty sb ops sb' Hs. exact (a0_lemma m D r loc f v ty sb ops sb' (setup_facts _ _ Hs)). Qed.
Print Assumptions a0_never_changes.

(** The hypotheses are met by a stretched 4 x 3 mesh on two ranks: the right
    boundary of u is handled by rank 1, which has three ghosts there, the first
    of them at (3, 0). *)
Example boundary_case :
  mesh_setup (ex_mesh false false) (ex_dec false false) /\
  (exists sb, createSingleBoundary (ex_mesh false false) (ex_dec false false) 1 1 0 5 CONVECTIVE = Ok sb /\
     length (sb_points sb) = 3%nat /\ In (st_of (3, 0, 0)%Z) (map fst (sb_points sb))) /\
  (exists sb, createSingleBoundary (ex_mesh false false) (ex_dec false false) 0 1 0 5 CONVECTIVE = Ok sb /\
     sb_points sb = []).
Proof.
  split; [apply ex_setup|]. split.
  - eexists. split; [apply create_ok; [apply setup_facts, ex_setup| | | |right; right; reflexivity];
      try (split; reflexivity || discriminate)|].
    split; [reflexivity|]. left. reflexivity.
  - eexists. split; [apply create_ok; [apply setup_facts, ex_setup| | | |right; right; reflexivity];
      try (split; reflexivity || discriminate)|]. reflexivity.
Qed.
