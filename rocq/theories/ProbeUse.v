(** Uniqueness and exactness of the interpolant, and the points of a volume
    probe over all ranks. *)
From Coq Require Import ZifyBool Permutation.
From Verif Require Import Prelude ZSum RSum TypesModel GridModel GridSpec GridProof MeshProof IndexModel IndexSpec IndexProof
  BoundaryModel BoundarySpec BoundaryProof OperatorModel OperatorSpec OperatorProof BStateProof MatModel ConvModel ConvProof DeltaModel ProbeModel ProbeSpec ProbeProof ProbeInterp ProbeRun.
Local Open Scope R_scope.

Lemma NoDup_map_on {A B} (g : A -> B) l : (forall a b, In a l -> In b l -> g a = g b -> a = b) -> NoDup l -> NoDup (map g l).
Proof.
  induction l as [|x t IH]; intros Hg Hn; [constructor|]. apply NoDup_cons_iff in Hn. destruct Hn as [Hx Ht]. cbn [map]. constructor.
  - intros Hin. apply in_map_iff in Hin. destruct Hin as (y & E & Hy). apply Hx. rewrite (Hg x y); auto; [now left|now right].
  - apply IH; auto. intros a b Ha Hb. apply Hg; now right.
Qed.

Section Interpolant.
Context (m : mesh) (D : dec) (Hs : mesh_setup m D) (f : Z) (Hf : (0 <= f < m_dim m)%Z).
Let F := setup_facts m D Hs.
Let Hdm := mf_dim _ _ F.

Definition wt (c : pt) (loc : Z -> R) (d : Z) : R := (loc d - crd m f d (pc c d)) / (crd m f d (pc c d + 1) - crd m f d (pc c d)).

Lemma step_pos d i : (0 <= d < m_dim m)%Z -> (-1 <= i < m_n m f d)%Z -> crd m f d i < crd m f d (i + 1).
Proof. intros Hd Hi. apply (mf_incr _ _ F); auto; lia. Qed.

Lemma wt_range c loc d : in_cell m f c loc -> (0 <= d < m_dim m)%Z ->
  0 <= wt c loc d <= 1 /\ loc d = lerp (wt c loc d) (crd m f d (pc c d)) (crd m f d (pc c d + 1)).
Proof.
  intros Hc Hd. destruct (Hc d Hd) as [A B]. pose proof (step_pos d (pc c d) Hd A) as P. unfold wt, lerp.
  set (x0 := crd m f d (pc c d)) in *. set (x1 := crd m f d (pc c d + 1)) in *. split; [|field; lra].
  split; [apply Rmult_le_pos; [lra|left; apply Rinv_0_lt_compat; lra]|]. apply (Rmult_le_reg_r (x1 - x0)); [lra|]. unfold Rdiv. rewrite Rmult_assoc, Rinv_l by lra. lra.
Qed.

Lemma interpolant_wsum w loc v : interpolant m f w loc v -> exists c, in_cell m f c loc /\ v = wsum (m_dim m) (wt c loc) c w.
Proof.
  intros (c & g & Hc & Mg & Hg & ->). exists c. split; [exact Hc|].
  rewrite <- (wsum_exact m f g (wt c loc) c loc Hdm Mg) by (intros d Hd; now apply wt_range).
  apply wsum_ext; auto.
Qed.

Lemma cells_meet c c' loc d : in_cell m f c loc -> in_cell m f c' loc -> (0 <= d < m_dim m)%Z ->
  (pc c d = pc c' d /\ wt c loc d = wt c' loc d) \/
  (pc c' d = (pc c d + 1)%Z /\ wt c loc d = 1 /\ wt c' loc d = 0) \/ (pc c d = (pc c' d + 1)%Z /\ wt c loc d = 0 /\ wt c' loc d = 1).
Proof.
  intros Hc Hc' Hd. destruct (Hc d Hd) as [A B], (Hc' d Hd) as [A' B']. unfold wt.
  pose proof (step_pos d (pc c d) Hd A) as P. pose proof (step_pos d (pc c' d) Hd A') as P'.
  assert (G : forall a b, (-1 <= a < m_n m f d)%Z -> (-1 <= b < m_n m f d)%Z -> crd m f d a <= loc d <= crd m f d (a + 1) -> crd m f d b <= loc d <= crd m f d (b + 1) ->
    (a < b)%Z -> b = (a + 1)%Z /\ loc d = crd m f d b).
  { intros a b Ha Hb Ia Ib Hab. pose proof (crd_mono m D Hs f Hf d (a + 1) b Hd ltac:(lia) ltac:(lia) ltac:(lia)).
    assert (loc d = crd m f d b) by lra. split; [|auto]. destruct (Z.eq_dec b (a + 1)) as [|Hne]; [auto|].
    pose proof (mf_incr _ _ F f d (a + 1) b Hf Hd ltac:(lia) ltac:(lia) ltac:(lia)). lra. }
  destruct (Z.lt_trichotomy (pc c d) (pc c' d)) as [L|[E|L]].
  - destruct (G _ _ A A' B B' L) as [E1 E2]. right. left. split; [exact E1|]. rewrite E2. rewrite E1 in *. split; field; lra.
  - left. split; [exact E|]. rewrite E. reflexivity.
  - destruct (G _ _ A' A B' B L) as [E1 E2]. right. right. split; [exact E1|]. rewrite E2. rewrite E1 in *. split; field; lra.
Qed.

Definition along (t : R) (i : Z) (h : Z -> R) : R := lerp t (h i) (h (i + 1)%Z).
Lemma along_eq t t' i i' h h' : (i = i' /\ t = t') \/ (i' = (i + 1)%Z /\ t = 1 /\ t' = 0) \/ (i = (i' + 1)%Z /\ t = 0 /\ t' = 1) ->
  (forall j, h j = h' j) -> along t i h = along t' i' h'.
Proof. unfold along. intros [[-> ->]|[(-> & -> & ->)|(-> & -> & ->)]] E; rewrite !E; [reflexivity| |]; rewrite lerp_0, lerp_1; reflexivity. Qed.

Lemma wsum_along dim t c a : wsum dim t c a =
  if (dim =? 2)%Z then along (t 1%Z) (pc c 1) (fun j => along (t 0%Z) (pc c 0) (fun i => a (i, j, 0%Z)))
  else along (t 2%Z) (pc c 2) (fun k => along (t 1%Z) (pc c 1) (fun j => along (t 0%Z) (pc c 0) (fun i => a (i, j, k)))).
Proof. destruct c as [[i j] k]. unfold wsum. destruct (dim =? 2)%Z; reflexivity. Qed.

Lemma interpolant_eq w loc v v' : interpolant m f w loc v -> interpolant m f w loc v' -> v = v'.
Proof.
  intros H H'. destruct (interpolant_wsum _ _ _ H) as (c & Hc & ->). destruct (interpolant_wsum _ _ _ H') as (c' & Hc' & ->). rewrite !wsum_along.
  destruct Hdm as [E|E]; rewrite E; cbn [Z.eqb Pos.eqb].
  - apply along_eq; [apply cells_meet; auto; lia|]. intros j. apply along_eq; [apply cells_meet; auto; lia|]. reflexivity.
  - apply along_eq; [apply cells_meet; auto; lia|]. intros k. apply along_eq; [apply cells_meet; auto; lia|].
    intros j. apply along_eq; [apply cells_meet; auto; lia|]. reflexivity.
Qed.

Lemma interpolant_at g loc v : multilinear g -> interpolant m f (at_point m f g) loc v -> v = at_loc m g loc.
Proof.
  intros Mg H. destruct (interpolant_wsum _ _ _ H) as (c & Hc & ->). apply wsum_exact; auto. intros d Hd. now apply wt_range.
Qed.
Lemma interpolant_between w loc v a b : interpolant m f w loc v -> (forall c q, in_cell m f c loc -> corner (m_dim m) c q -> a <= w q <= b) -> a <= v <= b.
Proof.
  intros H B. destruct (interpolant_wsum _ _ _ H) as (c & Hc & ->). apply wsum_bounds; auto; [intros d Hd; now apply wt_range|]. intros q Hq. eauto.
Qed.
End Interpolant.

Section All.
Context (m : mesh) (D : dec) (Hs : mesh_setup m D) (f : Z) (Hf : fieldok m f) (atol : R) (lo hi : Z -> R).
Let F := setup_facts m D Hs.
Let Hdm := mf_dim _ _ F.

Lemma all_points_filter : all_points m D f atol lo hi = filter (in_box m f atol lo hi) (field_layout D f).
Proof.
  unfold all_points, field_layout. rewrite filter_flat_map. reflexivity.
Qed.
Lemma all_points_In p : In p (all_points m D f atol lo hi) <-> interior (m_n m f) p /\ in_box m f atol lo hi p = true.
Proof. rewrite all_points_filter, filter_In. rewrite (field_layout_In D (m_n m f)) by (apply (mf_dec _ _ F); auto). tauto. Qed.
Lemma all_points_NoDup : NoDup (all_points m D f atol lo hi).
Proof. rewrite all_points_filter. apply NoDup_filter. eapply field_layout_NoDup. apply (mf_dec _ _ F); auto. Qed.

Lemma concat_map_flat {A B} (g : B -> list A) (l : list B) : concat (map g l) = flat_map g l.
Proof. induction l; cbn; congruence. Qed.
Lemma natural_concat : concat (vp_natural (the_vprobe m D f atol lo hi)) = map (natural (m_n m f)) (all_points m D f atol lo hi).
Proof.
  cbn [vp_natural the_vprobe]. unfold all_points. induction (zrange 0 (nranks D)) as [|r t IH]; [reflexivity|]. cbn [map concat flat_map]. rewrite map_app, IH. reflexivity.
Qed.

Lemma box_in_all p : In p (box (vlow m f atol lo 0) (vup m f atol hi 0) (vlow m f atol lo 1) (vup m f atol hi 1) (vlow m f atol lo 2) (vup m f atol hi 2)) <-> In p (all_points m D f atol lo hi).
Proof.
  rewrite all_points_In. split.
  - intros Hp. destruct p as [[i j] k]. apply box_In in Hp.
    destruct (vlow_spec m D Hs f Hf atol lo 0 ltac:(fold F; destruct Hdm; lia)) as (A0 & _). destruct (vup_spec m D Hs f Hf atol hi 0 ltac:(fold F; destruct Hdm; lia)) as (B0 & _).
    destruct (vlow_spec m D Hs f Hf atol lo 1 ltac:(destruct Hdm; lia)) as (A1 & _). destruct (vup_spec m D Hs f Hf atol hi 1 ltac:(destruct Hdm; lia)) as (B1 & _).
    assert (Hint : interior (m_n m f) (i, j, k)).
    { split; [lia|]. split; [lia|]. destruct Hdm as [E|E].
      - destruct (vlow2 m f atol lo hi E) as [Ea Eb]. rewrite Ea, Eb in Hp. destruct (mf_flat _ _ F f Hf E) as (-> & _). lia.
      - destruct (vlow_spec m D Hs f Hf atol lo 2 ltac:(lia)) as (A2 & _). destruct (vup_spec m D Hs f Hf atol hi 2 ltac:(lia)) as (B2 & _). lia. }
    split; [exact Hint|]. pose proof Hint as (Hi & Hj & Hk). unfold in_box. apply forallb_forall. intros d Hd. apply zrange_In in Hd.
    assert (d = 0 \/ d = 1 \/ d = 2)%Z as [->|[->| ->]] by (destruct Hdm; lia); rewrite (in_range_idx m D Hs f Hf) by (auto; try exact Hi; try exact Hj; try exact Hk);
      [change (pc (i, j, k) 0) with i|change (pc (i, j, k) 1) with j|change (pc (i, j, k) 2) with k]; lia.
  - intros [Hi Hb]. apply (in_box_box m D Hs f Hf atol lo hi); auto.
Qed.

Lemma grid_lines : box_usable m f atol lo hi ->
  map lenZ (the_grid m f atol lo hi) = map (fun d => (vup m f atol hi d - vlow m f atol lo d)%Z) (zrange 0 (m_dim m)).
Proof.
  intros Hu. unfold the_grid. rewrite map_map. apply map_ext_in. intros d Hd. apply zrange_In in Hd.
  rewrite (usable_iff m D Hs f Hf) in Hu. specialize (Hu d Hd). rewrite <- (filter_line m D Hs f Hf atol lo hi d Hd ltac:(lia)). rewrite lenZ_map, zrange_lenZ by lia. reflexivity.
Qed.
Lemma count_points : box_usable m f atol lo hi -> lenZ (all_points m D f atol lo hi) = fold_right Z.mul 1%Z (map lenZ (the_grid m f atol lo hi)).
Proof.
  intros Hu. rewrite grid_lines by auto.
  assert (P : Permutation (all_points m D f atol lo hi) (box (vlow m f atol lo 0) (vup m f atol hi 0) (vlow m f atol lo 1) (vup m f atol hi 1) (vlow m f atol lo 2) (vup m f atol hi 2))).
  { apply NoDup_Permutation; [apply all_points_NoDup|apply box_NoDup|]. intros p. symmetry. apply box_in_all. }
  unfold lenZ at 1. rewrite (Permutation_length P). rewrite (usable_iff m D Hs f Hf) in Hu.
  pose proof (Hu 0%Z ltac:(destruct Hdm; lia)). pose proof (Hu 1%Z ltac:(destruct Hdm; lia)).
  assert ((0 <= vup m f atol hi 2 - vlow m f atol lo 2)%Z).
  { destruct Hdm as [E|E]; [destruct (vlow2 m f atol lo hi E) as [-> ->]; lia|apply Hu; lia]. }
  etransitivity; [apply box_lenZ; lia|]. destruct Hdm as [E|E]; rewrite E.
  - destruct (vlow2 m f atol lo hi E) as [-> ->]. change (zrange 0 2) with [0; 1]%Z. cbn [map fold_right]. ring.
  - change (zrange 0 3) with [0; 1; 2]%Z. cbn [map fold_right]. ring.
Qed.
End All.
