(** C05 - C08, C10, C54: periodic validation, index maps, key order, loops. *)
From Coq Require Import Permutation Sorted.
From Verif Require Import Prelude ZSum TypesModel IndexModel IndexSpec LoopModel IndexProof LoopProof.
Local Open Scope Z_scope.

(** C05. *)
Theorem periodic_check_accepts_valid_tables : forall bc dim,
  sim_dim_is bc dim -> bc_table_ok bc dim ->
  exists per, checkPeriodicBC bc = Ok per /\
    forall f d, 0 <= f < 3 -> 0 <= d < 3 -> (per f d = true <-> bc f (2 * d) = PERIODIC).
Proof. exact periodic_check_accepts. Qed.
Print Assumptions periodic_check_accepts_valid_tables.

Theorem periodic_check_rejects_other_tables : forall bc dim,
  sim_dim_is bc dim -> ~ bc_table_ok bc dim -> checkPeriodicBC bc = Err PETSC_ERR_ARG_INCOMP.
Proof. exact periodic_check_rejects. Qed.
Print Assumptions periodic_check_rejects_other_tables.

(** On success the flags of all simulated components agree in each direction,
    so code that reads periodic[0][d] or periodic[d][d] sees the same flag. *)
Theorem periodic_flags_agree : forall bc dim per,
  sim_dim_is bc dim -> checkPeriodicBC bc = Ok per ->
  forall f g d, 0 <= f < dim -> 0 <= g < dim -> 0 <= d < 3 -> per f d = per g d.
Proof. exact periodic_flags_agree_lemma. Qed.
Print Assumptions periodic_flags_agree.

Example periodic_case_2d :
  let bc := fun f l => if f =? 2 then NOBC else if l <? 2 then PERIODIC else DIRICHLET in
  sim_dim_is bc 2 /\ bc_table_ok bc 2.
Proof.
  cbn zeta. split.
  - left. split; [reflexivity|]. reflexivity.
  - split.
    + intros f d Hf Hd. destruct (Z.eqb_spec f 2); [tauto|].
      assert (d = 0 \/ d = 1 \/ d = 2) as [->|[->| ->]] by lia; simpl; tauto.
    + intros d Hd. assert (d = 0 \/ d = 1 \/ d = 2) as [->|[->| ->]] by lia; simpl.
      * right. intros f Hf. destruct (Z.eqb_spec f 2); [lia|reflexivity].
      * left. intros f Hf. destruct (Z.eqb_spec f 2); discriminate.
      * left. intros f Hf. destruct (Z.eqb_spec f 2); discriminate.
Qed.
Example periodic_case_bad :
  let bc := fun f l => if (f =? 0) && (l =? 0) then PERIODIC else DIRICHLET in
  sim_dim_is bc 3 /\ ~ bc_table_ok bc 3.
Proof.
  cbn zeta. split.
  - right. split; [reflexivity|]. exists 0. split; [lia|discriminate].
  - intros [H _]. destruct (H 0 0 ltac:(lia) ltac:(lia)) as [H1 _]. simpl in H1. specialize (H1 eq_refl). discriminate.
Qed.

(** C06. Interior points: a bijection onto 0 .. N-1. *)
Theorem natural_index_interior : forall debug dim n per i j k,
  sizes_ok dim n -> interior n (i, j, k) ->
  exists idx, getNaturalIndex debug dim n per i j k = Ok idx /\ 0 <= idx < npoints n.
Proof. exact natural_interior_range. Qed.
Print Assumptions natural_index_interior.

Theorem natural_index_injective : forall debug dim n per i j k i' j' k' idx,
  sizes_ok dim n -> interior n (i, j, k) -> interior n (i', j', k') ->
  getNaturalIndex debug dim n per i j k = Ok idx ->
  getNaturalIndex debug dim n per i' j' k' = Ok idx ->
  (i, j, k) = (i', j', k').
Proof. exact natural_index_inj. Qed.
Print Assumptions natural_index_injective.

Theorem natural_index_onto : forall debug dim n per idx,
  sizes_ok dim n -> 0 <= idx < npoints n ->
  exists i j k, interior n (i, j, k) /\ getNaturalIndex debug dim n per i j k = Ok idx.
Proof. exact natural_index_surj. Qed.
Print Assumptions natural_index_onto.

(** C06. One step outside in at most one direction: the index of the periodic
    image, or -1 when that direction is not periodic. *)
Theorem natural_index_ghost : forall debug dim n per i j k,
  sizes_ok dim n -> in_frame n (i, j, k) -> n_outside n (i, j, k) <= 1 ->
  exists idx, getNaturalIndex debug dim n per i j k = Ok idx /\
    (has_image n per (i, j, k) = false -> idx = -1) /\
    (has_image n per (i, j, k) = true ->
       let '(i', j', k') := image n (i, j, k) in
       interior n (i', j', k') /\ getNaturalIndex debug dim n per i' j' k' = Ok idx).
Proof. exact natural_index_ghost_lemma. Qed.
Print Assumptions natural_index_ghost.

Example natural_index_ghost_case :
  let n := fun d => if d =? 0 then 4 else if d =? 1 then 3 else 2 in
  sizes_ok 3 n /\ in_frame n (-1, 2, 1) /\ n_outside n (-1, 2, 1) = 1 /\
  getNaturalIndex true 3 n (fun d => d =? 0) (-1) 2 1 = Ok 23 /\
  getNaturalIndex true 3 n (fun d => d =? 0) 3 2 1 = Ok 23 /\
  getNaturalIndex true 3 n (fun d => d =? 0) 1 3 1 = Ok (-1).
Proof. cbn zeta. unfold sizes_ok, in_frame. repeat split; try reflexivity; simpl; try lia. Qed.

(** C07. The unrestricted statement is false: a corner ghost of a mesh that is
    periodic in x only gets the index of an unrelated interior point, and a
    corner of a doubly periodic mesh gets -1 although its image exists. *)
Theorem natural_index_corner_refuted :
  (exists n per i j k idx, sizes_ok 3 n /\ in_frame n (i, j, k) /\
     has_image n per (i, j, k) = false /\
     getNaturalIndex true 3 n per i j k = Ok idx /\ 0 <= idx < npoints n) /\
  (exists n per i j k, sizes_ok 2 n /\ in_frame n (i, j, k) /\
     has_image n per (i, j, k) = true /\ getNaturalIndex true 2 n per i j k = Ok (-1)).
Proof. exact natural_corner_refuted. Qed.
Print Assumptions natural_index_corner_refuted.

(** C07, the part that holds: when the first outside direction (in the order
    x, y, z) is not periodic, every ghost, corner or not, gives -1. *)
Theorem natural_index_corner : forall debug dim n per i j k,
  sizes_ok dim n -> in_frame n (i, j, k) ->
  (outside (n 0) i = true -> per 0 = false) ->
  (outside (n 0) i = false -> outside (n 1) j = true -> per 1 = false) ->
  n_outside n (i, j, k) >= 1 ->
  (outside (n 0) i = false -> outside (n 1) j = false -> per 2 = false) ->
  getNaturalIndex debug dim n per i j k = Ok (-1).
Proof. exact natural_corner_partial. Qed.
Print Assumptions natural_index_corner.

(** C07, what the code does with every ghost: only the first outside direction,
    in the order x, y, z, is looked at. *)
Theorem natural_index_first_outside : forall debug dim n per i j k,
  sizes_ok dim n -> in_frame n (i, j, k) ->
  let linear p := let '(i, j, k) := p in i + j * n 0 + (if dim =? 3 then k * n 1 * n 0 else 0) in
  (outside (n 0) i = true -> getNaturalIndex debug dim n per i j k = Ok (if per 0 then linear (wrap (n 0) i, j, k) else -1)) /\
  (outside (n 0) i = false -> outside (n 1) j = true -> getNaturalIndex debug dim n per i j k = Ok (if per 1 then linear (i, wrap (n 1) j, k) else -1)) /\
  (outside (n 0) i = false -> outside (n 1) j = false -> outside (n 2) k = true ->
     getNaturalIndex debug dim n per i j k = Ok (if per 2 then linear (i, j, wrap (n 2) k) else -1)).
Proof. exact natural_first_outside. Qed.
Print Assumptions natural_index_first_outside.

(** C07. Hence the index is wrong for every corner that has a periodic image
    (in 3D with a single layer in z, for those outside in two directions). *)
Theorem natural_index_corner_image_refuted : forall debug dim n per i j k idx idx',
  sizes_ok dim n -> in_frame n (i, j, k) -> dim = 3 \/ k = 0 -> n_outside n (i, j, k) = 2 \/ (n_outside n (i, j, k) = 3 /\ 2 <= n 2) ->
  has_image n per (i, j, k) = true ->
  getNaturalIndex debug dim n per i j k = Ok idx ->
  getNaturalIndex debug dim n per (wrap (n 0) i) (wrap (n 1) j) (wrap (n 2) k) = Ok idx' -> idx <> idx'.
Proof. exact natural_corner_images. Qed.
Print Assumptions natural_index_corner_image_refuted.

Example natural_index_corner_case :
  let n := fun d => if d =? 2 then 1 else 4 in
  sizes_ok 2 n /\ in_frame n (-1, 4, 0) /\ n_outside n (-1, 4, 0) = 2.
Proof. cbn zeta. unfold sizes_ok, in_frame. repeat split; try reflexivity; simpl; try lia. Qed.

Example natural_index_corner_image_case :
  let n := fun d => if d =? 2 then 1 else 4 in let per := fun d : Z => d <? 2 in
  sizes_ok 2 n /\ in_frame n (-1, 4, 0) /\ n_outside n (-1, 4, 0) = 2 /\ has_image n per (-1, 4, 0) = true /\
  getNaturalIndex true 2 n per (-1) 4 0 = Ok 19 /\ getNaturalIndex true 2 n per 3 0 0 = Ok 3.
Proof. cbn zeta. unfold sizes_ok, in_frame. repeat split; try reflexivity; simpl; try lia. Qed.

(** C08. The packed index of an interior velocity point is its position in the
    composite vector, for any process grid and any split of the points. *)
Theorem packed_index_is_position : forall debug dim n per D f i j k,
  (dim = 2 \/ dim = 3) -> (forall g, 0 <= g < dim -> sizes_ok dim (n g)) ->
  (forall g, 0 <= g < dim -> dec_ok D (n g) g) ->
  0 <= f < dim -> interior (n f) (i, j, k) ->
  exists idx, getPackedGlobalIndex debug dim n per D f i j k = Ok idx /\
    nthZ (packed_layout dim D) idx = Some (f, (i, j, k)).
Proof. exact packed_interior. Qed.
Print Assumptions packed_index_is_position.

(** ... and hence a bijection between the velocity points and 0 .. UN-1. *)
Theorem packed_index_bijection : forall debug dim n per D,
  (dim = 2 \/ dim = 3) -> (forall g, 0 <= g < dim -> sizes_ok dim (n g)) ->
  (forall g, 0 <= g < dim -> dec_ok D (n g) g) ->
  (forall f i j k, 0 <= f < dim -> interior (n f) (i, j, k) ->
     exists idx, getPackedGlobalIndex debug dim n per D f i j k = Ok idx /\
                 0 <= idx < isum (fun g => npoints (n g)) 0 dim) /\
  (forall f i j k f' i' j' k' idx,
     0 <= f < dim -> interior (n f) (i, j, k) -> 0 <= f' < dim -> interior (n f') (i', j', k') ->
     getPackedGlobalIndex debug dim n per D f i j k = Ok idx ->
     getPackedGlobalIndex debug dim n per D f' i' j' k' = Ok idx ->
     (f, (i, j, k)) = (f', (i', j', k'))) /\
  (forall idx, 0 <= idx < isum (fun g => npoints (n g)) 0 dim ->
     exists f i j k, 0 <= f < dim /\ interior (n f) (i, j, k) /\
       getPackedGlobalIndex debug dim n per D f i j k = Ok idx).
Proof. exact packed_bijection. Qed.
Print Assumptions packed_index_bijection.

(** C08. Ghosts: -1 without image, otherwise the packed index of the image. *)
Theorem packed_index_ghost : forall debug dim n per D f i j k,
  (dim = 2 \/ dim = 3) -> (forall g, 0 <= g < dim -> sizes_ok dim (n g)) ->
  (forall g, 0 <= g < dim -> dec_ok D (n g) g) ->
  0 <= f < dim -> in_frame (n f) (i, j, k) -> n_outside (n f) (i, j, k) <= 1 ->
  (has_image (n f) per (i, j, k) = false ->
     getPackedGlobalIndex debug dim n per D f i j k = Ok (-1)) /\
  (has_image (n f) per (i, j, k) = true ->
     let '(i', j', k') := image (n f) (i, j, k) in
     getPackedGlobalIndex debug dim n per D f i j k = getPackedGlobalIndex debug dim n per D f i' j' k').
Proof. exact packed_ghost. Qed.
Print Assumptions packed_index_ghost.

(** C08. Pressure: the index is the position in the pressure vector itself. *)
Theorem packed_index_pressure : forall debug dim n per D i j k,
  sizes_ok dim (n 3) -> dec_ok D (n 3) 3 -> interior (n 3) (i, j, k) ->
  exists idx, getPackedGlobalIndex debug dim n per D 3 i j k = Ok idx /\
    nthZ (field_layout D 3) idx = Some (i, j, k).
Proof. exact packed_pressure. Qed.
Print Assumptions packed_index_pressure.

(** The decomposition PETSc computes by default satisfies the hypotheses. *)
Theorem default_decomposition_ok : forall np n f,
  (forall d, 0 <= d < 3 -> 1 <= np d) -> (forall d, 0 <= d < 3 -> 0 <= n f d) ->
  dec_ok (default_dec np n) (n f) f.
Proof. exact default_dec_ok. Qed.
Print Assumptions default_decomposition_ok.

Example packed_index_case :
  let np := fun d => if d =? 0 then 2 else if d =? 1 then 2 else 1 in
  let n := fun f d => if d =? 2 then 1 else if f =? d then 4 else 5 in
  (forall g, 0 <= g < 2 -> sizes_ok 2 (n g)) /\
  (forall g, 0 <= g < 2 -> dec_ok (default_dec np n) (n g) g) /\
  getPackedGlobalIndex true 2 n (fun _ => false) (default_dec np n) 1 3 2 0 = Ok 36 /\
  nthZ (packed_layout 2 (default_dec np n)) 36 = Some (1, (3, 2, 0)).
Proof.
  cbn zeta. split; [|split; [|split; reflexivity]].
  - intros g Hg. assert (g = 0 \/ g = 1) as [-> | ->] by lia; unfold sizes_ok; simpl; lia.
  - intros g Hg. apply default_dec_ok.
    + intros d Hd. destruct (d =? 0), (d =? 1); lia.
    + intros d Hd. destruct (d =? 2), (g =? d); lia.
Qed.

(** C10. The key order is the lexicographic order on (k, j, i, c): transitive,
    irreflexive, and two keys are equivalent exactly when they are equal. *)
Theorem stencil_order_lexicographic : forall a b, stencil_lt a b = true <-> lex_lt a b.
Proof. exact stencil_lt_spec. Qed.
Print Assumptions stencil_order_lexicographic.

Theorem stencil_order_trichotomy : forall a b,
  (stencil_lt a b = true /\ stencil_lt b a = false /\ a <> b) \/
  (stencil_lt a b = false /\ stencil_lt b a = true /\ a <> b) \/
  (stencil_lt a b = false /\ stencil_lt b a = false /\ a = b).
Proof. exact stencil_trichotomy. Qed.
Print Assumptions stencil_order_trichotomy.

Theorem stencil_order_transitive : forall a b c,
  stencil_lt a b = true -> stencil_lt b c = true -> stencil_lt a c = true.
Proof. exact stencil_lt_trans. Qed.
Print Assumptions stencil_order_transitive.

Example stencil_order_case : stencil_lt (mkSt 0 1 5 0) (mkSt 0 2 (-1) 0) = true.
Proof. reflexivity. Qed.

(** C54. The loops run the body over exactly the box, in lexicographic order,
    once per index, stopping at the first failure. *)
Theorem double_loop_visits : forall (S : Type) bg1 ed1 bg2 ed2,
  exists l : list (Z * Z),
    NoDup l /\ StronglySorted lex2 l /\
    (forall i j, In (i, j) l <-> bg1 <= i < ed1 /\ bg2 <= j < ed2) /\
    forall (f : Z -> Z -> S -> S * Z) (s : S),
      doubleLoops bg1 ed1 bg2 ed2 f s = run_seq (fun p => f (fst p) (snd p)) l s.
Proof. exact double_loop_spec. Qed.
Print Assumptions double_loop_visits.

Theorem triple_loop_visits : forall (S : Type) bg1 ed1 bg2 ed2 bg3 ed3,
  exists l : list (Z * Z * Z),
    NoDup l /\ StronglySorted lex3 l /\
    (forall i j k, In (i, j, k) l <-> bg1 <= i < ed1 /\ bg2 <= j < ed2 /\ bg3 <= k < ed3) /\
    forall (f : Z -> Z -> Z -> S -> S * Z) (s : S),
      tripleLoops bg1 ed1 bg2 ed2 bg3 ed3 f s = run_seq (fun p => f (fst (fst p)) (snd (fst p)) (snd p)) l s.
Proof. exact triple_loop_spec. Qed.
Print Assumptions triple_loop_visits.

Example double_loop_case :
  doubleLoops 0 2 (-1) 2 (fun i j s => (s ++ [(i, j)], if (i =? 1) && (j =? 0) then 77 else 0)) []
  = ([(0, -1); (0, 0); (0, 1); (1, -1); (1, 0)], 77).
Proof. reflexivity. Qed.
