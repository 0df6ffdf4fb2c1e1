(** The systems of linear equations of a time step. *)
From Coq Require Import Lia ZifyBool.
From Verif Require Import Prelude ZSum RSum TypesModel GridModel GridSpec GridProof MeshProof
  IndexModel IndexSpec IndexProof BoundaryModel BoundarySpec BoundaryProof OperatorModel OperatorSpec OperatorProof BStateProof LapProof DivProof GradProof
  AdjProof SymProof MatModel BnModel NSModel NSSpec NSProof NSPin LinAlg.
Local Open Scope R_scope.

(** * Rows of the Laplacian *)
(** The value the Laplacian sees next to the point p of component f in
    direction d on side s: the value at the (periodic) neighbour, or the part of
    the ghost value that is proportional to the value at p. *)
Definition hneigh (m : mesh) (types : Z -> Z -> bctype) (f : Z) (w : pt -> R) (p : pt) (d s : Z) : R :=
  let q := shift p d s in
  if has_image (m_n m f) (periodic_dir m) q then w (image (m_n m f) q)
  else a0_of types f (2 * d + (if (s =? 1)%Z then 1 else 0)) * w p.

Lemma lap_row m D types values h0 f p x w : mfacts m D -> bc_fits m types -> has_ics h0 -> periodic_min m 3 ->
  (0 <= f < m_dim m)%Z -> interior (m_n m f) p -> (forall q, interior (m_n m f) q -> x (idx m D f q) = w q) ->
  mat_mult (op_log (op_of m D types values (lap_rows m D) h0)) (n_velocity m) x (idx m D f p)
  = zsum (fun d => lapm m f p d * (hneigh m types f w p d (-1) - w p) + lapp m f p d * (hneigh m types f w p d 1 - w p)) 0 (m_dim m).
Proof.
  intros F Hb Hics Hmin Hf Hp Hw. pose proof (mf_dim _ _ F) as Hdim.
  destruct (owner_exists D (m_n m f) f p) as (r & Hr & Hpl); auto. { apply (mf_dec _ _ F); auto. }
  assert (Hrow : In (idx m D f p, lap_items m D f p) (lap_rows m D r)).
  { unfold lap_rows. apply in_flat_map. exists f. split; [now apply zrange_In|]. apply in_map_iff. exists p. auto. }
  set (lin := fun it c => if (0 <=? it_col it)%Z then delta c (it_col it) else ghost_lin (bpts m D types values h0 r) (it_f it) (it_st it) c).
  assert (Item : forall d s, (0 <= d < m_dim m)%Z -> (s = 1 \/ s = -1)%Z -> forall v,
     zsum (fun c => lin (mkIt f (st_of (shift p d s)) (idx m D f (shift p d s)) v) c * x c) 0 (n_velocity m) = hneigh m types f w p d s).
  { intros d s Hd Hs v. unfold lin, hneigh. cbn [it_col it_f it_st].
    destruct (nb_cases m D f p d s F Hf Hp Hd Hs) as (_ & _ & [(Hi & _ & I & Ei)|(Hi & Hper & Ei & L1 & L2 & L3 & L4)]); rewrite Hi.
    - assert (E1 : idx m D f (shift p d s) = idx m D f (image (m_n m f) (shift p d s))) by (unfold idx at 1; rewrite Ei; reflexivity).
      pose proof (idx_range m D f _ F Hf I) as Rg. rewrite E1. replace (0 <=? idx m D f (image (m_n m f) (shift p d s)))%Z with true by lia.
      rewrite delta_sum by exact Rg. now apply Hw.
    - replace (idx m D f (shift p d s)) with (-1)%Z by (unfold idx; now rewrite Ei). cbn [Z.leb Z.compare].
      set (loc := (2 * d + (if (s =? 1)%Z then 1 else 0))%Z) in *.
      rewrite (zsum_ext _ (fun c => a0_of types f loc * (delta c (idx m D f p) * x c))).
      + unfold zsum. rewrite sumR_scal. f_equal. change (zsum (fun k => delta k (idx m D f p) * x k) 0 (n_velocity m) = w p).
        rewrite delta_sum by now apply idx_range. now apply Hw.
      + intros c Hc. rewrite (ghost_lin_value m D types values h0 r f loc) by (first [assumption | rewrite L2; exact Hper | rewrite L4; exact Hpl]).
        rewrite L4. ring. }
  unfold mat_mult.
  rewrite (zsum_ext _ (fun c => sumR (fun it => it_val it * (lin it c * x c)) (lap_items m D f p))).
  2: { intros c Hc. rewrite (op_entry m D types values (lap_rows m D) h0 r _ _ _ F Hb Hics (vrows_NoDup m D (lap_items m D) F)
        ltac:(intros; now apply (lap_HI m D r0)) ltac:(intros; now apply lap_HK) Hr Hrow Hc).
       rewrite (Rmult_comm _ (x c)), <- sumR_scal. apply sumR_ext. intros it Hit. unfold lin. ring. }
  unfold zsum at 1. rewrite sumR_swap.
  rewrite (sumR_ext _ (fun it => it_val it * zsum (fun c => lin it c * x c) 0 (n_velocity m))) by (intros it _; unfold zsum; now rewrite sumR_scal).
  unfold lap_items. cbn [sumR it_val].
  assert (E0 : zsum (fun c => lin (mkIt f (st_of p) (idx m D f p) (- sumR it_val (lap_offs m D f p))) c * x c) 0 (n_velocity m) = w p).
  { unfold lin. cbn [it_col]. pose proof (idx_range m D f p F Hf Hp). replace (0 <=? idx m D f p)%Z with true by lia. rewrite delta_sum by assumption. now apply Hw. }
  rewrite E0. unfold lap_offs. rewrite !sumR_flat_map. cbn [sumR it_val]. unfold zsum.
  rewrite Ropp_mult_distr_l_reverse, (Rmult_comm (sumR _ _)), <- sumR_scal, <- sumR_opp, <- sumR_plus. apply sumR_ext.
  intros d Hd. apply zrange_In in Hd. fold (zsum (fun c => lin (mkIt f (st_of (shift p d (-1))) (idx m D f (shift p d (-1))) (lapm m f p d)) c * x c) 0 (n_velocity m)).
  fold (zsum (fun c => lin (mkIt f (st_of (shift p d 1)) (idx m D f (shift p d 1)) (lapp m f p d)) c * x c) 0 (n_velocity m)).
  rewrite !Item by auto. ring.
Qed.

Lemma abs_le_inv a b : Rabs a <= b -> - b <= a <= b.
Proof. intros H. pose proof (Rle_abs a). pose proof (Rle_abs (- a)). rewrite Rabs_Ropp in H1. lra. Qed.
Lemma a0_bound types f loc : -1 <= a0_of types f loc <= 1.
Proof. unfold a0_of. destruct (types f loc); try lra; destruct (loc_dir loc =? f)%Z; lra. Qed.
Lemma lap_pos m D f p d : mfacts m D -> (0 <= f < m_dim m)%Z -> (0 <= d < m_dim m)%Z -> interior (m_n m f) p -> 0 < lapm m f p d /\ 0 < lapp m f p d.
Proof.
  intros F Hf Hd Hp. pose proof (mf_dim _ _ F) as Hdim. rewrite interior_pc in Hp. specialize (Hp d ltac:(lia)).
  pose proof (mf_incr _ _ F f d (pc p d) (pc p d + 1)%Z Hf Hd ltac:(lia) ltac:(lia) ltac:(lia)).
  pose proof (mf_incr _ _ F f d (pc p d - 1)%Z (pc p d) Hf Hd ltac:(lia) ltac:(lia) ltac:(lia)).
  destruct (mf_wid _ _ F f d (pc p d) Hf Hd ltac:(lia)) as [_ W].
  unfold lapm, lapp, Rdiv. rewrite !Rmult_1_l. split; apply Rinv_0_lt_compat, Rmult_lt_0_compat; lra.
Qed.

(** An index where the first n entries are largest in absolute value. *)
Lemma max_entry (x : Z -> R) n : (0 < n)%Z -> exists i, (0 <= i < n)%Z /\ forall j, (0 <= j < n)%Z -> Rabs (x j) <= Rabs (x i).
Proof.
  intros Hn. assert (G : forall n, (1 <= n)%Z -> exists i, (0 <= i < n)%Z /\ forall j, (0 <= j < n)%Z -> Rabs (x j) <= Rabs (x i)).
  { apply (zind_up _ 1%Z).
    - exists 0%Z. split; [lia|]. intros j Hj. replace j with 0%Z by lia. lra.
    - intros k Hk (i & Hi & H). destruct (Rle_dec (Rabs (x k)) (Rabs (x i))) as [C|C].
      + exists i. split; [lia|]. intros j Hj. destruct (Z.eq_dec j k) as [->|]; auto. apply H. lia.
      + exists k. split; [lia|]. intros j Hj. destruct (Z.eq_dec j k) as [->|]; [lra|]. specialize (H j ltac:(lia)). lra. }
  apply G. lia.
Qed.

Lemma mvec_shift n A c a x i : (0 <= i < n)%Z -> mvec n (mshift (mscale c A) a) x i = c * mvec n A x i + a * x i.
Proof.
  intros Hi. unfold mvec, mshift, mscale. rewrite (zsum_ext _ (fun l => c * (A i l * x l) + delta l i * (a * x l))).
  - unfold zsum. rewrite sumR_plus, sumR_scal. f_equal. change (zsum (fun k => delta k i * (a * x k)) 0 n = a * x i). now rewrite (delta_sum n i (fun k => a * x k)).
  - intros l _. unfold delta. rewrite (Z.eqb_sym i l). destruct (l =? i)%Z eqn:E; rewrite ?(Z.eqb_sym i l), ?E; ring.
Qed.

(** * The momentum equations *)
Lemma momentum_bound m D types values h0 c dt x b M : mfacts m D -> bc_fits m types -> has_ics h0 -> periodic_min m 3 ->
  0 <= c -> 0 < dt ->
  solves (n_velocity m) (mshift (mscale (- c) (entry (op_log (op_of m D types values (lap_rows m D) h0)))) (1 / dt)) x b ->
  (forall i, (0 <= i < n_velocity m)%Z -> Rabs (b i) <= M) ->
  forall i, (0 <= i < n_velocity m)%Z -> Rabs (x i) <= dt * M.
Proof.
  intros F Hb Hics Hmin Hc Hdt Hs HM i0 Hi0.
  destruct (max_entry x (n_velocity m) ltac:(lia)) as (i & Hi & Hmax).
  apply Rle_trans with (Rabs (x i)); [now apply Hmax|]. specialize (HM i Hi).
  destruct (velocity_ids m D i F Hi) as (f & p & Hid). destruct (velocity_row m D i f p F Hid) as (Hf & Hp & Ei & _).
  specialize (Hs i Hi). rewrite mvec_shift in Hs by auto.
  set (w := fun q => x (idx m D f q)).
  assert (Rw : mvec (n_velocity m) (entry (op_log (op_of m D types values (lap_rows m D) h0))) x i
    = zsum (fun d => lapm m f p d * (hneigh m types f w p d (-1) - w p) + lapp m f p d * (hneigh m types f w p d 1 - w p)) 0 (m_dim m)).
  { rewrite Ei. now apply (lap_row m D types values h0 f p x w). }
  rewrite Rw in Hs. assert (Wp : w p = x i) by (unfold w; now rewrite <- Ei).
  assert (Nb : forall d s, (0 <= d < m_dim m)%Z -> (s = 1 \/ s = -1)%Z -> Rabs (hneigh m types f w p d s) <= Rabs (x i)).
  { intros d s Hd Hs'. unfold hneigh. destruct (nb_cases m D f p d s F Hf Hp Hd Hs') as (_ & _ & [(Hh & _ & I & _)|(Hh & _)]); rewrite Hh.
    - unfold w. apply Hmax. now apply idx_range.
    - rewrite Wp, Rabs_mult. pose proof (a0_bound types f (2 * d + (if (s =? 1)%Z then 1 else 0))). pose proof (Rabs_pos (x i)).
      assert (Rabs (a0_of types f (2 * d + (if (s =? 1)%Z then 1 else 0))) <= 1) by (apply Rabs_le; lra). nra. }
  set (S := zsum (fun d => lapm m f p d * (hneigh m types f w p d (-1) - w p) + lapp m f p d * (hneigh m types f w p d 1 - w p)) 0 (m_dim m)) in *.
  assert (Hx : x i = dt * (b i + c * S)) by (rewrite <- Hs; field; lra). apply abs_le_inv in HM.
  destruct (Rle_dec (x i) 0) as [Neg|Pos].
  - assert (0 <= S).
    { apply sumR_nonneg. intros d Hd. apply zrange_In in Hd. destruct (lap_pos m D f p d F Hf Hd Hp) as [P1 P2].
      pose proof (Nb d (-1)%Z Hd ltac:(auto)) as N1. pose proof (Nb d 1%Z Hd ltac:(auto)) as N2. rewrite (Rabs_left1 (x i)) in N1, N2 by lra.
      rewrite Wp. apply abs_le_inv in N1, N2. nra. }
    rewrite Rabs_left1 by lra. assert (0 <= c * S) by (now apply Rmult_le_pos). nra.
  - assert (0 <= - S).
    { unfold S, zsum. rewrite <- sumR_opp. apply sumR_nonneg. intros d Hd. apply zrange_In in Hd. destruct (lap_pos m D f p d F Hf Hd Hp) as [P1 P2].
      pose proof (Nb d (-1)%Z Hd ltac:(auto)) as N1. pose proof (Nb d 1%Z Hd ltac:(auto)) as N2. rewrite (Rabs_right (x i)) in N1, N2 by lra.
      rewrite Wp. apply abs_le_inv in N1, N2. nra. }
    rewrite Rabs_right by lra. assert (0 <= c * - S) by (now apply Rmult_le_pos). nra.
Qed.

Lemma solves_minus n A x y b : solves n A x b -> solves n A y b -> solves n A (fun i => x i - y i) (fun _ => 0).
Proof.
  intros Hx Hy r Hr. specialize (Hx r Hr). specialize (Hy r Hr). unfold mvec in *.
  rewrite (zsum_ext _ (fun l => A r l * x l - A r l * y l)) by (intros; ring). unfold zsum in *. rewrite sumR_minus, Hx, Hy. ring.
Qed.
Lemma solves_ext n A A' x b : (forall i j, A i j = A' i j) -> solves n A x b -> solves n A' x b.
Proof. intros H Hx r Hr. rewrite <- (Hx r Hr). unfold mvec. apply zsum_ext. intros l _. now rewrite H. Qed.
(** Injective on n unknowns: exactly one solution. *)
Lemma injective_unique n A : (0 <= n)%Z -> (forall x, solves n A x (fun _ => 0) -> forall i, (0 <= i < n)%Z -> x i = 0) ->
  forall b, exists x, solves n A x b /\ forall y, solves n A y b -> forall i, (0 <= i < n)%Z -> y i = x i.
Proof.
  intros Hn H b. destruct (injective_solvable n A Hn H b) as (x & Hx). exists x. split; auto. intros y Hy i Hi.
  pose proof (H _ (solves_minus _ _ _ _ _ Hy Hx) i Hi). cbv beta in H0. lra.
Qed.

Section Systems.
Context (m : mesh) (D : dec) (P : nspar) (types : Z -> Z -> bctype) (values : Z -> Z -> R) (t0 : R) (n0 : Z) (U0 p0 : vec) (ops : nsops) (s0 : nsstate).
Hypothesis Hset : mesh_setup m D.
Hypothesis Hb : bc_fits m types.
Hypothesis HI : ns_init m D P types values t0 n0 U0 p0 = Ok (ops, s0).

Lemma nv_nonneg : (0 <= n_velocity m)%Z.
Proof.
  pose proof (setup_facts _ _ Hset) as F. assert (DA : dec_all (m_dim m) D (m_n m)) by (intros g Hg; apply (mf_dec _ _ F); auto).
  assert (L : lenZ (packed_layout (m_dim m) D) = n_velocity m).
  { apply packed_layout_len; auto; [intros; apply (mf_sizes _ _ F); auto|]. pose proof (mf_dim _ _ F). lia. }
  unfold lenZ in L. lia.
Qed.
Lemma np_pos : (1 <= n_pressure m)%Z.
Proof.
  pose proof (setup_facts _ _ Hset) as F.
  pose proof (sizes_pos m D 3 0 F (or_intror eq_refl) ltac:(lia)). pose proof (sizes_pos m D 3 1 F (or_intror eq_refl) ltac:(lia)).
  pose proof (sizes_pos m D 3 2 F (or_intror eq_refl) ltac:(lia)). unfold n_pressure, npoints. nia.
Qed.
Lemma momentum_bound_ns x b M : periodic_min m 3 -> 0 <= p_dimp P * p_nu P -> 0 < p_dt P ->
  solves (n_velocity m) (o_A ops) x b -> (forall i, (0 <= i < n_velocity m)%Z -> Rabs (b i) <= M) ->
  forall i, (0 <= i < n_velocity m)%Z -> Rabs (x i) <= p_dt P * M.
Proof.
  intros Hmin Hc Hdt Hs. pose proof (setup_facts _ _ Hset) as F.
  destruct (ns_init_inv _ _ _ _ _ _ _ _ _ _ _ F Hb HI) as (B0 & HB0 & EO & _).
  destruct (createOperators_inv _ _ _ _ _ EO) as (d & g & l & BN & Ed & Eg & El & EB & ->). cbn [o_A] in Hs.
  rewrite (createLaplacian_ok m D types values [OpICs U0] B0 F Hb HB0) in El. injection El as <-.
  apply (momentum_bound m D types values [OpICs U0] (p_dimp P * p_nu P) (p_dt P) x b M); auto. { exists U0; now left. }
  rewrite Ropp_mult_distr_l. exact Hs.
Qed.
Lemma momentum_unique_ns : periodic_min m 3 -> 0 <= p_dimp P * p_nu P -> 0 < p_dt P ->
  forall b, exists x, solves (n_velocity m) (o_A ops) x b /\ forall y, solves (n_velocity m) (o_A ops) y b -> forall i, (0 <= i < n_velocity m)%Z -> y i = x i.
Proof.
  intros Hmin Hc Hdt. apply injective_unique; [exact nv_nonneg|]. intros x Hx i Hi.
  assert (Rabs (x i) <= p_dt P * 0) by (apply (momentum_bound_ns x (fun _ => 0)); auto; intros; rewrite Rabs_R0; lra).
  pose proof (Rabs_pos (x i)). destruct (Req_dec (x i) 0) as [|N]; auto. apply Rabs_pos_lt in N. lra.
Qed.

(** * The Poisson equation *)
Hypothesis Hmin : periodic_min m 2.
Hypothesis Hn : no_normal_neumann m types.
Lemma unpinned_columns j : (0 <= j < n_pressure m)%Z -> zsum (fun i => unpinned m ops i j) 0 (n_pressure m) = 0.
Proof.
  intros Hj. pose proof (setup_facts _ _ Hset) as F.
  destruct (ns_init_inv _ _ _ _ _ _ _ _ _ _ _ F Hb HI) as (B0 & HB0 & EO & _).
  destruct (createOperators_inv _ _ _ _ _ EO) as (d & g & l & BN & Ed & Eg & El & EB & ->). unfold unpinned. cbn [o_D o_BNG].
  unfold mmul at 1, zsum. rewrite sumR_swap. apply sumR_zero. intros q Hq. apply zrange_In in Hq. rewrite sumR_scal_r.
  assert (Hics : has_ics [OpICs U0]) by (exists U0; now left).
  pose proof (div_column_sum m D types values [OpICs U0] q F Hb Hics Hmin Hn Hq) as Z0.
  rewrite (createDivergence_ok m D types values false [OpICs U0] B0 F Hb HB0) in Ed. injection Ed as <-. unfold zsum in Z0. rewrite Z0. lra.
Qed.
Lemma unpinned_total x b : solves (n_pressure m) (unpinned m ops) x b -> NSSpec.total (n_pressure m) b = 0.
Proof.
  intros Hx. unfold NSSpec.total. rewrite (zsum_ext _ (fun i => mvec (n_pressure m) (unpinned m ops) x i)) by (intros i Hi; now rewrite (Hx i Hi)).
  unfold mvec, zsum. rewrite sumR_swap. apply sumR_zero. intros j Hj. apply zrange_In in Hj. rewrite sumR_scal_r.
  pose proof (unpinned_columns j Hj) as Z0. unfold zsum in Z0. rewrite Z0. ring.
Qed.
Hypothesis Hbn : p_bn P = 1%Z.
Hypothesis Hdt : p_dt P <> 0.
Lemma unpinned_kernel x : solves (n_pressure m) (unpinned m ops) x (fun _ => 0) ->
  forall c c', (0 <= c < n_pressure m)%Z -> (0 <= c' < n_pressure m)%Z -> x c = x c'.
Proof.
  intros Hx. apply (order_one_kernel m D P types values t0 n0 U0 p0 ops s0); auto.
  unfold zsum. apply sumR_zero. intros r Hr. apply zrange_In in Hr. rewrite (Hx r Hr). ring.
Qed.
Lemma pinned_injective x : solves (n_pressure m) (pin (unpinned m ops)) x (fun _ => 0) -> forall i, (0 <= i < n_pressure m)%Z -> x i = 0.
Proof.
  intros Hx i Hi. pose proof np_pos as N.
  assert (X0 : x 0%Z = 0).
  { rewrite <- (Hx 0%Z ltac:(lia)). unfold mvec. rewrite (zsum_ext _ (fun l => if (l =? 0)%Z then x 0%Z else 0)).
    - symmetry. apply (NSPin.zsum_single 0 (fun _ => x 0%Z) (n_pressure m)). lia.
    - intros l Hl. unfold pin. cbn [Z.eqb orb]. destruct (Z.eqb_spec l 0) as [->|]; [cbv beta iota; cbn [Z.eqb]; ring|]. destruct l; [congruence|ring|ring]. }
  rewrite <- X0. apply unpinned_kernel; auto; [|lia].
  apply (pin_equivalent (n_pressure m) (unpinned m ops) (fun _ => 0) x N).
  - exact unpinned_columns.
  - unfold NSSpec.total, zsum. now apply sumR_zero.
  - intros r Hr. rewrite (Hx r Hr). now destruct (r =? 0)%Z.
Qed.
Lemma unpinned_solvable b : NSSpec.total (n_pressure m) b = 0 -> exists x, solves (n_pressure m) (unpinned m ops) x b.
Proof.
  intros Hz. pose proof np_pos as N.
  destruct (injective_solvable (n_pressure m) (pin (unpinned m ops)) ltac:(lia) pinned_injective (fun i => if (i =? 0)%Z then 0 else b i)) as (x & Hx).
  exists x. apply pin_equivalent; auto. exact unpinned_columns.
Qed.
Lemma stored_matrix i j : o_DBNG ops i j = (if p_refp P then pin (unpinned m ops) else unpinned m ops) i j.
Proof. destruct (order_one m D P types values t0 n0 U0 p0 ops s0 Hset Hb Hmin Hn Hbn HI) as (w & g & _ & _ & HS). apply HS. Qed.
Lemma pinned_unique_ns : p_refp P = true ->
  forall b, exists x, solves (n_pressure m) (o_DBNG ops) x b /\ forall y, solves (n_pressure m) (o_DBNG ops) y b -> forall i, (0 <= i < n_pressure m)%Z -> y i = x i.
Proof.
  intros Hp. apply injective_unique; [pose proof np_pos; lia|]. intros x Hx. apply pinned_injective.
  revert Hx. apply solves_ext. intros i j. now rewrite stored_matrix, Hp.
Qed.
Lemma unpinned_ns : p_refp P = false -> forall b,
  ((exists x, solves (n_pressure m) (o_DBNG ops) x b) <-> NSSpec.total (n_pressure m) b = 0) /\
  (forall x, solves (n_pressure m) (o_DBNG ops) x b -> forall y, solves (n_pressure m) (o_DBNG ops) y b <->
     exists a, forall i, (0 <= i < n_pressure m)%Z -> y i = x i + a).
Proof.
  intros Hp b. assert (E : forall i j, o_DBNG ops i j = unpinned m ops i j) by (intros; now rewrite stored_matrix, Hp). split; [split|].
  - intros (x & Hx). apply (unpinned_total x). revert Hx. now apply solves_ext.
  - intros Hz. destruct (unpinned_solvable b Hz) as (x & Hx). exists x. revert Hx. now apply solves_ext.
  - intros x Hx y. split.
    + intros Hy. exists (y 0%Z - x 0%Z). intros i Hi. pose proof np_pos.
      pose proof (solves_ext _ _ _ _ _ E (solves_minus _ _ _ _ _ Hy Hx)) as Hd. pose proof (unpinned_kernel _ Hd i 0%Z Hi ltac:(lia)) as K. cbv beta in K. lra.
    + intros (a & Ha) r Hr. rewrite <- (Hx r Hr). unfold mvec. rewrite (zsum_ext _ (fun l => o_DBNG ops r l * x l + a * o_DBNG ops r l)) by (intros l Hl; rewrite Ha by auto; ring).
      unfold zsum. rewrite sumR_plus, sumR_scal.
      match goal with |- _ + a * ?s = _ => enough (Z0 : s = 0) by (rewrite Z0; ring) end.
      rewrite <- (unpinned_columns r Hr). apply sumR_ext. intros l Hl. apply zrange_In in Hl. rewrite E.
      destruct (order_one m D P types values t0 n0 U0 p0 ops s0 Hset Hb Hmin Hn Hbn HI) as (w & g & _ & HA & _). rewrite !HA by auto. f_equal. apply zsum_ext. intros; ring.
Qed.
End Systems.
