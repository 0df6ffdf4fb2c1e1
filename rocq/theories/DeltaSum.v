(** Row and column sums of the delta operator. *)
From Coq Require Import String ZifyBool Permutation.
From Verif Require Import Prelude ZSum RSum TypesModel GridModel GridSpec GridProof MeshProof IndexModel IndexSpec IndexProof
  BoundaryModel BoundarySpec BoundaryProof OperatorModel OperatorSpec OperatorProof BStateProof MatModel ConvModel ConvSpec ConvProof AdjProof ConvTotal GradProof
  AlgebraProps BodyModel BodySpec BodyProof BodyUse DeltaModel DeltaSpec DeltaKernel DeltaProof DeltaOp.
Local Open Scope R_scope.

Lemma comp_sum m D c (G : pt -> R) g : mfacts m D -> (0 <= c < m_dim m)%Z ->
  (forall id f p, nthZ (packed_layout (m_dim m) D) id = Some (f, p) -> g id = if (f =? c)%Z then G p else 0) ->
  zsum g 0 (n_velocity m) = sumR G (points m c).
Proof.
  intros F Hf Hy. assert (DA : dec_all (m_dim m) D (m_n m)) by (intros f Hg; apply (mf_dec _ _ F); auto).
  assert (L : lenZ (packed_layout (m_dim m) D) = n_velocity m) by (apply packed_layout_len; auto; [intros; apply (mf_sizes _ _ F); auto|]; pose proof (mf_dim _ _ F); lia).
  rewrite <- L. set (GG := fun gp : Z * pt => if (fst gp =? c)%Z then G (snd gp) else 0).
  rewrite (sum_layout (fun _ => GG) (packed_layout (m_dim m) D) GG).
  - rewrite (split_sum (fun gp => (fst gp =? c)%Z) GG).
    rewrite (sumR_zero GG (filter (fun a => negb (fst a =? c)%Z) _)).
    2: { intros a Ha. apply filter_In in Ha. unfold GG. destruct (fst a =? c)%Z; [destruct Ha; discriminate|reflexivity]. }
    rewrite (sumR_ext GG (fun gp => G (snd gp))).
    2: { intros a Ha. apply filter_In in Ha. unfold GG. destruct Ha as [_ ->]. reflexivity. }
    rewrite Rplus_0_r. rewrite <- (sumR_map snd G). apply sumR_perm. apply NoDup_Permutation.
    + assert (N : NoDup (filter (fun gp => (fst gp =? c)%Z) (packed_layout (m_dim m) D))) by (apply NoDup_filter; eapply packed_layout_NoDup; eauto).
      assert (E : forall a, In a (filter (fun gp => (fst gp =? c)%Z) (packed_layout (m_dim m) D)) -> fst a = c) by (intros a Ha; apply filter_In in Ha; lia).
      exact (NoDup_snd c _ N E).
    + apply box_NoDup.
    + intros p. rewrite in_map_iff, points_In. split.
      * intros ([f q] & <- & Ha). apply filter_In in Ha. destruct Ha as [Ha Eg]. cbn [fst snd] in *. apply (packed_layout_In _ _ (m_n m)) in Ha; auto.
        destruct Ha as [_ Ha]. replace c with f by lia. exact Ha.
      * intros Hp. exists (c, p). split; [reflexivity|]. apply filter_In. split; [|cbn; lia]. apply (packed_layout_In _ _ (m_n m)); auto.
  - auto.
  - intros id [f p] Hid. change (Z * Z * Z)%type with pt in *. now rewrite (Hy id f p Hid).
Qed.

Lemma box_prod (A B C : Z -> R) n0 n1 n2 :
  sumR (fun p => A (pc p 0) * B (pc p 1) * C (pc p 2)) (box 0 n0 0 n1 0 n2) = zsum A 0 n0 * zsum B 0 n1 * zsum C 0 n2.
Proof.
  unfold box, zsum. rewrite sumR_flat_map. 
  rewrite (sumR_ext _ (fun k => (sumR A (zrange 0 n0) * sumR B (zrange 0 n1)) * C k)); [now rewrite (sumR_scal (sumR A (zrange 0 n0) * sumR B (zrange 0 n1)) C)|].
  intros k _. rewrite sumR_flat_map. rewrite (sumR_ext _ (fun j => (sumR A (zrange 0 n0) * C k) * B j)); [rewrite (sumR_scal (sumR A (zrange 0 n0) * C k) B); ring|].
  intros j _. rewrite sumR_map. rewrite (sumR_ext _ (fun i => (B j * C k) * A i)); [rewrite (sumR_scal (B j * C k) A); ring|].
  intros i _. change (pc (i, j, k) 0) with i. change (pc (i, j, k) 1) with j. change (pc (i, j, k) 2) with k. ring.
Qed.

Section Sums.
Context (m : mesh) (D : dec) (h : Z -> R) (Hs : mesh_setup m D).
Context (name : string) (K : kernel) (w : Z) (HK : getKernel name = Ok (K, w)).
Let F := setup_facts m D Hs.

Section Direction.
Context (c d k : Z) (x : R) (Hc : (0 <= c < m_dim m)%Z) (Hd : (0 <= d < m_dim m)%Z) (Hcell : cell_of m d k x) (P : 0 < h d)
  (HU : forall j, (0 <= j < m_n m 3 d)%Z -> near_cell m d w k j -> wid m 3 d j = h d)
  (Hx : m_min m d + radius name * h d <= x <= m_max m d - radius name * h d).

Lemma vpos_shift s : x - vpos m d k (h d) c s = x - vpos m d k (h d) c 0 - IZR s * h d.
Proof. unfold vpos, upos. lra. Qed.
Lemma dir_covers : covers (radius name) (h d) (x - vpos m d k (h d) c 0) 0 (m_n m c d).
Proof. intros s Hr. rewrite <- vpos_shift. exact (vpos_covers m D Hs name K w HK d k x (h d) Hd Hcell P HU c s Hc Hx Hr). Qed.

Lemma dir_zeroth : zsum (fun s => kval K (x - crd m c d s) (h d)) 0 (m_n m c d) = 1 / h d.
Proof.
  rewrite <- (kernel_zeroth name K w _ (h d) 0 (m_n m c d) HK P dir_covers).
  apply zsum_ext. intros s Hr. rewrite <- vpos_shift. apply (kval_vpos m D Hs name K w HK d k x (h d)); auto.
Qed.
Lemma dir_first : zsum (fun s => crd m c d s * kval K (x - crd m c d s) (h d)) 0 (m_n m c d) = x / h d.
Proof.
  pose proof (kernel_first name K w _ (h d) 0 (m_n m c d) HK P dir_covers) as E1.
  rewrite (zsum_ext _ (fun s => x * kval K (x - crd m c d s) (h d) - (x - crd m c d s) * kval K (x - crd m c d s) (h d))) by (intros; ring).
  pose proof dir_zeroth as E0. unfold zsum in *. rewrite sumR_minus, sumR_scal.
  assert (Z0 : sumR (fun s => (x - crd m c d s) * kval K (x - crd m c d s) (h d)) (zrange 0 (m_n m c d)) = 0).
  { rewrite <- E1. apply sumR_ext. intros s Hr. apply zrange_In in Hr. rewrite <- vpos_shift. apply (kval_vpos m D Hs name K w HK d k x (h d)); auto. }
  rewrite Z0, E0. unfold Rdiv. ring.
Qed.
End Direction.

Context (bodies : list (body * list (list R))) (Hu : uniform_around m h w bodies).

Lemma clear_cell b i X d : located bodies b i X -> clear m h (radius name) X -> (0 <= d < m_dim m)%Z ->
  exists k, cell_of m d k (xc X d) /\ 0 < h d /\ forall j, (0 <= j < m_n m 3 d)%Z -> near_cell m d w k j -> wid m 3 d j = h d.
Proof.
  intros Hl Hx Hd. pose proof (Hx d Hd) as Hxd. assert (P : 0 < h d) by now apply Hu.
  assert (RP : 0 < radius name * h d) by (apply Rmult_lt_0_compat; [|lra]; destruct (getKernel_cases _ _ _ HK) as [(_ & _ & _ & ->)|(_ & _ & _ & ->)]; lra).
  destruct (host_exists m D Hs d (xc X d) Hd ltac:(lra)) as (k & Hk). exists k. exact (around m D Hs bodies w h Hu b i X d k Hl Hd Hk).
Qed.

Lemma interp_sum b i c X a g : located bodies b i X -> (0 <= c < m_dim m)%Z -> clear m h (radius name) X ->
  sumR (fun p => kernel_at m K h c X p * affine m a g c (fun d => crd m c d (pc p d))) (points m c) * cell_volume m h
  = affine m a g c (xc X).
Proof.
  intros Hl Hc Hx. pose proof (mf_dim _ _ F) as Hdim. unfold points.
  assert (P : forall d, (0 <= d < m_dim m)%Z -> 0 < h d) by apply Hu.
  set (k := fun d s => kval K (xc X d - crd m c d s) (h d)).
  set (k1 := fun d s => crd m c d s * kval K (xc X d - crd m c d s) (h d)).
  assert (Z0 : forall d, (0 <= d < m_dim m)%Z -> zsum (k d) 0 (m_n m c d) = 1 / h d) by (intros d Hd; destruct (clear_cell b i X d Hl Hx Hd) as (kc & C1 & C2 & C3); apply (dir_zeroth c d kc); auto).
  assert (Z1 : forall d, (0 <= d < m_dim m)%Z -> zsum (k1 d) 0 (m_n m c d) = xc X d / h d) by (intros d Hd; destruct (clear_cell b i X d Hl Hx Hd) as (kc & C1 & C2 & C3); apply (dir_first c d kc); auto).
  destruct Hdim as [D2|D3].
  - set (o := fun _ : Z => 1). pose proof (proj1 (mf_flat _ _ F c (or_introl Hc) D2)) as N2.
    assert (O : zsum o 0 (m_n m c 2) = 1) by (rewrite N2; unfold o; rewrite zsum_const by lia; cbn; lra).
    rewrite (sumR_ext _ (fun p => a c * (k 0%Z (pc p 0) * k 1%Z (pc p 1) * o (pc p 2))
       + (g c 0%Z * (k1 0%Z (pc p 0) * k 1%Z (pc p 1) * o (pc p 2)) + g c 1%Z * (k 0%Z (pc p 0) * k1 1%Z (pc p 1) * o (pc p 2))))).
    2: { intros p _. unfold kernel_at, affine. rewrite D2. change (2 =? 3)%Z with false. cbv iota. unfold zsum. change (zrange 0 2) with [0; 1]%Z. cbn [sumR].
         unfold k, k1, o. ring. }
    rewrite !sumR_plus, !sumR_scal. rewrite !box_prod. rewrite !Z0, !Z1, O by lia. unfold cell_volume, affine. rewrite D2. change (2 =? 3)%Z with false. cbv iota.
    unfold zsum. change (zrange 0 2) with [0; 1]%Z. cbn [sumR]. pose proof (P 0%Z ltac:(lia)). pose proof (P 1%Z ltac:(lia)). field. lra.
  - rewrite (sumR_ext _ (fun p => a c * (k 0%Z (pc p 0) * k 1%Z (pc p 1) * k 2%Z (pc p 2))
       + (g c 0%Z * (k1 0%Z (pc p 0) * k 1%Z (pc p 1) * k 2%Z (pc p 2)) + (g c 1%Z * (k 0%Z (pc p 0) * k1 1%Z (pc p 1) * k 2%Z (pc p 2))
       + g c 2%Z * (k 0%Z (pc p 0) * k 1%Z (pc p 1) * k1 2%Z (pc p 2)))))).
    2: { intros p _. unfold kernel_at, affine. rewrite D3. change (3 =? 3)%Z with true. cbv iota. unfold zsum. change (zrange 0 3) with [0; 1; 2]%Z. cbn [sumR].
         unfold k, k1. ring. }
    rewrite !sumR_plus, !sumR_scal. rewrite !box_prod. rewrite !Z0, !Z1 by lia. unfold cell_volume, affine. rewrite D3. change (3 =? 3)%Z with true. cbv iota.
    unfold zsum. change (zrange 0 3) with [0; 1; 2]%Z. cbn [sumR].
    pose proof (P 0%Z ltac:(lia)). pose proof (P 1%Z ltac:(lia)). pose proof (P 2%Z ltac:(lia)). field. lra.
Qed.

(** * The operators of the solvers *)
Lemma area_of id f p : nthZ (packed_layout (m_dim m) D) id = Some (f, p) -> (forall d, (0 <= d < m_dim m)%Z -> wid m f d (pc p d) = h d) ->
  face_area m false f p * wid m f f (pc p f) = cell_volume m h.
Proof.
  intros Hid W. destruct (velocity_row m D id f p F Hid) as (Hf & Hp & _). rewrite interior_pc in Hp. pose proof (mf_dim _ _ F) as Hdim.
  unfold face_area, cell_volume. destruct Hdim as [D2|D3].
  - assert (W2 : wid m f 2 (pc p 2) = 1).
    { destruct (mf_flat _ _ F f (or_introl Hf) D2) as (N2 & _ & W2). specialize (Hp 2%Z ltac:(lia)). rewrite N2 in Hp. replace (pc p 2) with 0%Z by lia. exact W2. }
    rewrite D2. change (2 =? 3)%Z with false. cbv iota. assert (f = 0 \/ f = 1)%Z as [->| ->] by lia; unfold perp0, perp1; cbn [Z.eqb Pos.eqb];
      rewrite ?W2, ?W by lia; ring.
  - rewrite D3. change (3 =? 3)%Z with true. cbv iota. assert (f = 0 \/ f = 1 \/ f = 2)%Z as [->|[->| ->]] by lia; unfold perp0, perp1; cbn [Z.eqb Pos.eqb];
      rewrite ?W by lia; ring.
Qed.

Context (B : boundary) (types : Z -> Z -> bctype) (values : Z -> Z -> R) (hist : list bop) (Hb : bc_fits m types)
  (HB : boundary_after m D types values hist B) (Hw : wide_enough m w) (Hbo : bodies_ok m D bodies) (E H : mat) (HE : ib_operators m D B name bodies = Ok (E, H)).

Lemma ib_entries row b i c X id f p :
  nthZ (body_layout (nranks D) (m_dim m) (map fst bodies)) row = Some (b, i, c) -> located bodies b i X ->
  nthZ (packed_layout (m_dim m) D) id = Some (f, p) ->
  H id row = (if (f =? c)%Z then kernel_at m K h c X p else 0) /\ E row id = H id row * cell_volume m h.
Proof.
  intros Hrow Hl Hid. unfold ib_operators in HE.
  destruct (diagonal_operators m D Hs) as (Rm & Ri & Mm & Mq & Id & ER & _ & EM & _ & _ & HD).
  rewrite ER, EM, HK in HE. cbn [bind fst snd] in HE. apply bind_ok_inv in HE. destruct HE as (dl & Ed & EE). injection EE as <- <-.
  unfold mtranspose. pose proof (entry_kernel m D Hs bodies Hbo B name K w HK dl Ed types values hist Hb HB h Hu Hw row b i c X id f p Hrow Hl Hid) as EK.
  split; [exact EK|]. rewrite EK.
  assert (Hid2 : (0 <= id < n_velocity m)%Z).
  { pose proof (nthZ_Some_range _ _ _ Hid) as Hr. rewrite (packed_layout_len (m_dim m) D (m_n m)) in Hr; auto.
    - intros g Hg. apply (mf_dec _ _ F); auto.
    - intros; apply (mf_sizes _ _ F); auto.
    - pose proof (mf_dim _ _ F); lia. }
  destruct (HD id f p id Hid Hid2) as (V1 & _ & V3 & _). rewrite Z.eqb_refl in V1, V3.
  unfold mdscale, vones, mdiag. rewrite V1, V3. rewrite EK. destruct (Z.eqb_spec f c) as [->|]; [|ring].
  destruct (Req_EM_T (kernel_at m K h c X p) 0) as [->|Hne]; [ring|]. rewrite <- (area_of id c p Hid); [ring|]. intros d Hd.
  destruct (log_In m D Hs bodies Hbo B K w dl Ed) as [_ I2]. destruct (I2 b i c row Hrow) as (X' & es & Q & _).
  destruct Q as (r & per & ws & IJK & _ & Hl' & _ & Hc & _ & _ & _ & Hh & _). assert (X' = X) by (eapply located_fun; eauto). subst X'.
  destruct (Hh d Hd) as (k & _ & Hk). destruct (around m D Hs bodies w h Hu b i X d k Hl Hd Hk) as (C1 & C2 & C3).
  destruct (velocity_row m D id c p F Hid) as (_ & Hp & _). rewrite interior_pc in Hp. pose proof (mf_dim _ _ F) as Hdim.
  apply (near_wid m D Hs name K w HK d k (xc X d) (h d) Hd C1 C2 C3 c (pc p d) Hc (Hp d ltac:(lia))).
  intros Z0. apply Hne. unfold kernel_at. destruct (Z.eqb_spec (m_dim m) 3).
  - assert (d = 0 \/ d = 1 \/ d = 2)%Z as [->|[->| ->]] by lia; rewrite Z0; ring.
  - assert (d = 0 \/ d = 1)%Z as [->| ->] by lia; rewrite Z0; ring.
Qed.

Lemma ib_interpolates row b i c X a g x :
  nthZ (body_layout (nranks D) (m_dim m) (map fst bodies)) row = Some (b, i, c) -> located bodies b i X ->
  clear m h (radius name) X -> holds_affine m D a g x ->
  mvec (n_velocity m) E x row = affine m a g c (xc X).
Proof.
  intros Hrow Hl Hx Ha. destruct Hbo as (Hok & _). pose proof (proj1 (body_layout_In _ _ _ Hok b i c) (nthZ_In _ _ _ Hrow)) as (bo & _ & _ & Hc).
  rewrite <- (interp_sum b i c X a g Hl Hc Hx). rewrite <- sumR_scal_r. unfold mvec.
  refine (comp_sum m D c (fun p => kernel_at m K h c X p * affine m a g c (fun d => crd m c d (pc p d)) * cell_volume m h) _ F Hc _).
  intros id f p Hid. destruct (ib_entries row b i c X id f p Hrow Hl Hid) as [E1 E2]. rewrite E2, E1, (Ha id f p Hid).
  destruct (Z.eqb_spec f c) as [->|]; ring.
Qed.

Lemma bodies_pos : forall row b i c, nthZ (body_layout (nranks D) (m_dim m) (map fst bodies)) row = Some (b, i, c) -> exists X, located bodies b i X.
Proof.
  intros row b i c Hrow. destruct Hbo as (Hok & Hf). pose proof (proj1 (body_layout_In _ _ _ Hok b i c) (nthZ_In _ _ _ Hrow)) as (bo & Eb & Hi & Hc).
  rewrite nthZ_map in Eb. destruct (nthZ bodies b) as [bc|] eqn:Ebc; [|discriminate]. cbn in Eb. injection Eb as <-.
  rewrite Forall_forall in Hf. destruct (Hf bc (nthZ_In _ _ _ Ebc)) as [L _]. destruct (nthZ_in_range (snd bc) i) as (X & EX); [lia|].
  exists X, bc. auto.
Qed.

Lemma ib_power nb (Fo vel : vec) a g x :
  nb = lenZ (body_layout (nranks D) (m_dim m) (map fst bodies)) -> holds_affine m D a g x ->
  (forall row b i c X, nthZ (body_layout (nranks D) (m_dim m) (map fst bodies)) row = Some (b, i, c) -> located bodies b i X ->
     clear m h (radius name) X /\ vel row = affine m a g c (xc X)) ->
  zsum (fun id => cell_volume m h * mvec nb H Fo id * x id) 0 (n_velocity m) = zsum (fun row => Fo row * vel row) 0 nb.
Proof.
  intros -> Ha Hv. set (nb := lenZ _).
  assert (Row : forall row, (0 <= row < nb)%Z -> exists b i c X, nthZ (body_layout (nranks D) (m_dim m) (map fst bodies)) row = Some (b, i, c) /\ located bodies b i X).
  { intros row Hr. destruct (nthZ_in_range _ row Hr) as ([[b i] c] & Er). destruct (bodies_pos row b i c Er) as (X & Hl). eauto 6. }
  rewrite (zsum_ext (fun row => Fo row * vel row) (fun row => Fo row * mvec (n_velocity m) E x row)).
  2: { intros row Hr. destruct (Row row Hr) as (b & i & c & X & Er & Hl). destruct (Hv row b i c X Er Hl) as [Hcl ->].
       now rewrite (ib_interpolates row b i c X a g x Er Hl Hcl Ha). }
  unfold mvec, zsum.
  rewrite (sumR_ext (fun row => Fo row * sumR (fun l => E row l * x l) (zrange 0 (n_velocity m)))
                    (fun row => sumR (fun l => Fo row * (E row l * x l)) (zrange 0 (n_velocity m)))).
  2: { intros row _. now rewrite sumR_scal. }
  rewrite sumR_swap. apply sumR_ext. intros id Hid. apply zrange_In in Hid.
  destruct (velocity_ids m D id F Hid) as (f & p & Ei).
  rewrite (sumR_ext (fun row => Fo row * (E row id * x id)) (fun row => (cell_volume m h * x id) * (H id row * Fo row))).
  - rewrite (sumR_scal (cell_volume m h * x id) (fun row => H id row * Fo row)). ring.
  - intros row Hr. apply zrange_In in Hr. destruct (Row row Hr) as (b & i & c & X & Er & Hl).
    destruct (ib_entries row b i c X id f p Er Hl Ei) as [_ ->]. ring.
Qed.
End Sums.

Lemma area_width m D h id f p : mesh_setup m D -> uniform m h -> nthZ (packed_layout (m_dim m) D) id = Some (f, p) ->
  face_area m false f p * wid m f f (pc p f) = cell_volume m h.
Proof.
  intros Hs Hu Hid. apply (area_of m D h Hs id f p Hid). intros d Hd.
  destruct (velocity_row m D id f p (setup_facts m D Hs) Hid) as (Hf & Hp & _). rewrite interior_pc in Hp. pose proof (mf_dim _ _ (setup_facts m D Hs)).
  apply (uni_wid m D h Hs Hu); auto. specialize (Hp d ltac:(lia)). lia.
Qed.
