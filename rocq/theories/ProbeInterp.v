(** Lemmas about the point probe. *)
From Coq Require Import ZifyBool.
From Verif Require Import Prelude ZSum RSum TypesModel GridModel GridSpec GridProof MeshProof IndexModel IndexSpec IndexProof
  BoundaryModel BoundarySpec BoundaryProof OperatorModel OperatorSpec OperatorProof BStateProof MatModel ConvModel ConvProof DeltaModel ProbeModel ProbeSpec ProbeProof.
Local Open Scope R_scope.

(** * The interpolation formula *)
Definition lerp (t a b : R) : R := (1 - t) * a + t * b.
Definition wsum2 (t : Z -> R) (i j k : Z) (a : pt -> R) : R :=
  lerp (t 1%Z) (lerp (t 0%Z) (a (i, j, k)) (a ((i + 1)%Z, j, k))) (lerp (t 0%Z) (a (i, (j + 1)%Z, k)) (a ((i + 1)%Z, (j + 1)%Z, k))).
Definition wsum3 (t : Z -> R) (i j k : Z) (a : pt -> R) : R :=
  lerp (t 2%Z) (wsum2 t i j k a) (wsum2 t i j (k + 1) a).
Definition wsum (dim : Z) (t : Z -> R) (c : pt) (a : pt -> R) : R :=
  let '(i, j, k) := c in if (dim =? 2)%Z then wsum2 t i j 0 a else wsum3 t i j k a.

Lemma lerp_bounds t a b lo hi : 0 <= t <= 1 -> lo <= a <= hi -> lo <= b <= hi -> lo <= lerp t a b <= hi.
Proof. unfold lerp. intros. split; nra. Qed.

Lemma corner_mk dim c q : (dim = 2 \/ dim = 3)%Z -> corner dim c q <->
  (pc q 0 = pc c 0 \/ pc q 0 = pc c 0 + 1)%Z /\ (pc q 1 = pc c 1 \/ pc q 1 = pc c 1 + 1)%Z /\
  (if (dim =? 2)%Z then pc q 2 = 0%Z else (pc q 2 = pc c 2 \/ pc q 2 = pc c 2 + 1)%Z).
Proof.
  intros Hd. unfold corner. split.
  - intros H. pose proof (H 0%Z ltac:(lia)) as A. pose proof (H 1%Z ltac:(lia)) as B. pose proof (H 2%Z ltac:(lia)) as C.
    destruct Hd as [-> | ->]; cbn in A, B, C |- *; auto.
  - intros (A & B & C) d Hdd. assert (d = 0 \/ d = 1 \/ d = 2)%Z as [->|[->| ->]] by lia; destruct Hd as [-> | ->]; cbn in *; auto.
Qed.

Lemma lerp_0 a b : lerp 0 a b = a. Proof. unfold lerp; ring. Qed.
Lemma lerp_1 a b : lerp 1 a b = b. Proof. unfold lerp; ring. Qed.
Lemma lerp_ext t a b a' b' : (t <> 1 -> a = a') -> b = b' -> lerp t a b = lerp t a' b'.
Proof. intros Ha ->. unfold lerp. destruct (Req_EM_T t 1) as [->|H]; [ring|rewrite (Ha H); reflexivity]. Qed.

(** Values whose weight vanishes do not matter. *)
Lemma wsum_ext dim t c a a' : (dim = 2 \/ dim = 3)%Z ->
  (forall q, corner dim c q -> (forall d, (0 <= d < dim)%Z -> t d = 1 -> pc q d = (pc c d + 1)%Z) -> a q = a' q) ->
  wsum dim t c a = wsum dim t c a'.
Proof.
  intros Hd H. destruct c as [[i j] k].
  assert (G : forall i' j' k', (i' = i \/ i' = i + 1)%Z -> (j' = j \/ j' = j + 1)%Z -> (if (dim =? 2)%Z then k' = 0%Z else (k' = k \/ k' = k + 1)%Z) ->
     (t 0%Z = 1 -> i' = (i + 1)%Z) -> (t 1%Z = 1 -> j' = (j + 1)%Z) -> (dim = 3%Z -> t 2%Z = 1 -> k' = (k + 1)%Z) -> a (i', j', k') = a' (i', j', k')).
  { intros i' j' k' A B C Ti Tj Tk. apply H.
    - apply corner_mk; auto.
    - intros d Hdd Ht. assert (d = 0 \/ d = 1 \/ d = 2)%Z as [->|[->| ->]] by (destruct Hd; lia);
        [exact (Ti Ht)|exact (Tj Ht)|apply Tk; auto; destruct Hd; lia]. }
  assert (K : forall k', (if (dim =? 2)%Z then k' = 0%Z else (k' = k \/ k' = k + 1)%Z) -> (dim = 3%Z -> t 2%Z = 1 -> k' = (k + 1)%Z) ->
     wsum2 t i j k' a = wsum2 t i j k' a').
  { intros k' C Tk. unfold wsum2. repeat (apply lerp_ext; intros); apply G; auto; intros; try lia; try contradiction. }
  unfold wsum. destruct Hd as [-> | ->]; cbn [Z.eqb Pos.eqb].
  - apply K; [reflexivity|lia].
  - unfold wsum3. apply lerp_ext; intros; apply K; cbn; auto; intros; contradiction.
Qed.

Lemma wsum_bounds dim t c a lo hi : (dim = 2 \/ dim = 3)%Z -> (forall d, (0 <= d < dim)%Z -> 0 <= t d <= 1) ->
  (forall q, corner dim c q -> lo <= a q <= hi) -> lo <= wsum dim t c a <= hi.
Proof.
  intros Hd Ht H. destruct c as [[i j] k].
  assert (G : forall i' j' k', (i' = i \/ i' = i + 1)%Z -> (j' = j \/ j' = j + 1)%Z -> (if (dim =? 2)%Z then k' = 0%Z else (k' = k \/ k' = k + 1)%Z) ->
     lo <= a (i', j', k') <= hi).
  { intros. apply H. apply corner_mk; auto. }
  pose proof (Ht 0%Z ltac:(destruct Hd; lia)). pose proof (Ht 1%Z ltac:(destruct Hd; lia)).
  unfold wsum. destruct Hd as [-> | ->]; cbn [Z.eqb Pos.eqb]; unfold wsum3, wsum2.
  - repeat (apply lerp_bounds; auto); apply G; cbn; auto.
  - pose proof (Ht 2%Z ltac:(lia)). repeat (apply lerp_bounds; auto); apply G; cbn; auto.
Qed.

(** Multilinear functions are reproduced. *)
Lemma wsum_exact m f g t c loc : (m_dim m = 2 \/ m_dim m = 3)%Z -> multilinear g ->
  (forall d, (0 <= d < m_dim m)%Z -> loc d = lerp (t d) (crd m f d (pc c d)) (crd m f d (pc c d + 1))) ->
  wsum (m_dim m) t c (at_point m f g) = at_loc m g loc.
Proof.
  intros Hd (Mx & My & Mz) Hl. destruct c as [[i j] k].
  pose proof (Hl 0%Z ltac:(destruct Hd; lia)) as L0. pose proof (Hl 1%Z ltac:(destruct Hd; lia)) as L1.
  change (pc (i, j, k) 0) with i in L0. change (pc (i, j, k) 1) with j in L1.
  assert (X : forall y z, g (loc 0%Z) y z = lerp (t 0%Z) (g (crd m f 0 i) y z) (g (crd m f 0 (i + 1)) y z)) by (intros; rewrite L0; apply Mx).
  assert (Y : forall x z, g x (loc 1%Z) z = lerp (t 1%Z) (g x (crd m f 1 j) z) (g x (crd m f 1 (j + 1)) z)) by (intros; rewrite L1; apply My).
  unfold wsum, at_loc. destruct Hd as [E|E]; rewrite E; cbn [Z.eqb Pos.eqb].
  - unfold wsum2, at_point. rewrite E. cbn [Z.eqb Pos.eqb]. rewrite Y, !X. reflexivity.
  - pose proof (Hl 2%Z ltac:(lia)) as L2. change (pc (i, j, k) 2) with k in L2.
    assert (W : forall x y, g x y (loc 2%Z) = lerp (t 2%Z) (g x y (crd m f 2 k)) (g x y (crd m f 2 (k + 1)))) by (intros; rewrite L2; apply Mz).
    unfold wsum3, wsum2, at_point. rewrite E. cbn [Z.eqb Pos.eqb]. rewrite W, !Y, !X. reflexivity.
Qed.

(** The multilinear function through given corner values. *)
Lemma interpolant_exists m f c (a : pt -> R) : (m_dim m = 2 \/ m_dim m = 3)%Z ->
  (forall d, (0 <= d < m_dim m)%Z -> crd m f d (pc c d) < crd m f d (pc c d + 1)) ->
  exists g, multilinear g /\ forall q, corner (m_dim m) c q -> at_point m f g q = a q.
Proof.
  intros Hd Hc. destruct c as [[i j] k].
  set (x0 := crd m f 0 i). set (x1 := crd m f 0 (i + 1)). set (y0 := crd m f 1 j). set (y1 := crd m f 1 (j + 1)).
  assert (Hx : x0 < x1) by (apply (Hc 0%Z); destruct Hd; lia). assert (Hy : y0 < y1) by (apply (Hc 1%Z); destruct Hd; lia).
  set (hx := / (x1 - x0)). set (hy := / (y1 - y0)).
  assert (Ax : (x1 - x0) * hx = 1) by (unfold hx; field; lra). assert (Ay : (y1 - y0) * hy = 1) by (unfold hy; field; lra).
  destruct Hd as [E|E].
  - exists (fun x y z => wsum2 (fun d => if (d =? 0)%Z then (x - x0) * hx else (y - y0) * hy) i j 0 a). split.
    + unfold multilinear, affine1, wsum2, lerp. cbn [Z.eqb]. repeat split; intros; ring.
    + intros q Hq. rewrite E in Hq. apply corner_mk in Hq; [|lia]. destruct q as [[i' j'] k']. cbn in Hq. destruct Hq as (A & B & C). subst k'.
      unfold at_point. change (pc (i', j', 0%Z) 0) with i'. change (pc (i', j', 0%Z) 1) with j'. unfold wsum2. cbn [Z.eqb].
      destruct A as [-> | ->], B as [-> | ->]; fold x0 x1 y0 y1; unfold Rminus; rewrite ?Rplus_opp_r, ?Rmult_0_l, ?lerp_0; fold (x1 - x0); fold (y1 - y0);
        rewrite ?Ax, ?Ay, ?lerp_1; reflexivity.
  - set (z0 := crd m f 2 k). set (z1 := crd m f 2 (k + 1)).
    assert (Hz : z0 < z1) by (apply (Hc 2%Z); lia). set (hz := / (z1 - z0)). assert (Az : (z1 - z0) * hz = 1) by (unfold hz; field; lra).
    exists (fun x y z => wsum3 (fun d => if (d =? 0)%Z then (x - x0) * hx else if (d =? 1)%Z then (y - y0) * hy else (z - z0) * hz) i j k a). split.
    + unfold multilinear, affine1, wsum3, wsum2, lerp. cbn [Z.eqb Pos.eqb]. repeat split; intros; ring.
    + intros q Hq. rewrite E in Hq. apply corner_mk in Hq; [|lia]. destruct q as [[i' j'] k']. cbn in Hq. destruct Hq as (A & B & C).
      unfold at_point. rewrite E. cbn [Z.eqb Pos.eqb]. change (pc (i', j', k') 0) with i'. change (pc (i', j', k') 1) with j'. change (pc (i', j', k') 2) with k'.
      unfold wsum3, wsum2. cbn [Z.eqb Pos.eqb].
      destruct A as [-> | ->], B as [-> | ->], C as [-> | ->]; fold x0 x1 y0 y1 z0 z1; unfold Rminus; rewrite ?Rplus_opp_r, ?Rmult_0_l, ?lerp_0; fold (x1 - x0); fold (y1 - y0); fold (z1 - z0);
        rewrite ?Ax, ?Ay, ?Az, ?lerp_1; reflexivity.
Qed.

(** * Vectors of one field *)
Lemma filter_flat_map {A B} (P : B -> bool) (g : A -> list B) l : filter P (flat_map g l) = flat_map (fun a => filter P (g a)) l.
Proof. induction l as [|a t IH]; [reflexivity|]. cbn [flat_map]. rewrite filter_app, IH. reflexivity. Qed.
Lemma flat_map_ext_in {A B} (g h : A -> list B) l : (forall a, In a l -> g a = h a) -> flat_map g l = flat_map h l.
Proof. induction l as [|a t IH]; intros H; [reflexivity|]. cbn [flat_map]. rewrite H, IH; auto; [intros; apply H; now right|now left]. Qed.
Lemma flat_map_nil {A B} (l : list A) : flat_map (fun _ => @nil B) l = [].
Proof. induction l; [reflexivity|auto]. Qed.
Lemma filter_all {A} (P : A -> bool) l : (forall a, In a l -> P a = true) -> filter P l = l.
Proof. induction l as [|a t IH]; intros H; [reflexivity|]. cbn [filter]. rewrite H by (now left). rewrite IH; auto. intros; apply H; now right. Qed.
Lemma filter_none {A} (P : A -> bool) l : (forall a, In a l -> P a = false) -> filter P l = [].
Proof. induction l as [|a t IH]; intros H; [reflexivity|]. cbn [filter]. rewrite H by (now left). apply IH. intros; apply H; now right. Qed.

Lemma packed_filter dim D f : (0 <= f < dim)%Z ->
  filter (fun fp => (fst fp =? f)%Z) (packed_layout dim D) = map (fun p => (f, p)) (field_layout D f).
Proof.
  intros Hf. unfold packed_layout, field_layout. rewrite filter_flat_map.
  assert (E : forall r, filter (fun fp : Z * (Z * Z * Z) => (fst fp =? f)%Z) (flat_map (fun f' => map (fun p => (f', p)) (local_points D f' r)) (zrange 0 dim))
              = map (fun p => (f, p)) (local_points D f r)).
  { intros r. rewrite filter_flat_map.
    rewrite (zrange_app 0 f dim) by lia. rewrite (zrange_cons f dim) by lia. rewrite flat_map_app. cbn [flat_map].
    rewrite (flat_map_ext_in _ (fun _ => []) (zrange 0 f)), flat_map_nil.
    2:{ intros a Ha. apply zrange_In in Ha. apply filter_none. intros [x y] Hx. apply in_map_iff in Hx. destruct Hx as (p & Ep & _). injection Ep as <- <-. cbn [fst]. lia. }
    rewrite (flat_map_ext_in _ (fun _ => []) (zrange (f + 1) dim)), flat_map_nil.
    2:{ intros a Ha. apply zrange_In in Ha. apply filter_none. intros [x y] Hx. apply in_map_iff in Hx. destruct Hx as (p & Ep & _). injection Ep as <- <-. cbn [fst]. lia. }
    cbn [app]. rewrite app_nil_r. apply filter_all. intros [x y] Hx. apply in_map_iff in Hx. destruct Hx as (p & Ep & _). injection Ep as <- <-. cbn [fst]. lia. }
  induction (zrange 0 (nranks D)) as [|r t IH]; [reflexivity|]. cbn [flat_map]. rewrite map_app, <- IH, E. reflexivity.
Qed.

Lemma filter_combine {A B} (P : B -> bool) (a : list A) (l : list B) : length a = length l ->
  map snd (filter (fun ab => P (snd ab)) (combine a l)) = filter P l.
Proof.
  revert a. induction l as [|x t IH]; intros [|y a] E; try discriminate; [reflexivity|]. cbn [combine filter snd].
  cbn in E. destruct (P x); cbn [map snd]; rewrite IH by lia; reflexivity.
Qed.

Lemma vel_access_value m D U f w : (0 <= f < m_dim m)%Z ->
  (forall id p, nthZ (packed_layout (m_dim m) D) id = Some (f, p) -> w p = U id) ->
  forall g p, nthZ (field_layout D f) g = Some p -> vel_access m D U f g = w p.
Proof.
  intros Hf HU g p Hg. unfold vel_access. set (pk := packed_layout (m_dim m) D) in *.
  set (L := filter (fun gp => (fst (snd gp) =? f)%Z) (combine (zrange 0 (lenZ pk)) pk)).
  assert (E : map snd L = map (fun p => (f, p)) (field_layout D f)).
  { unfold L. rewrite <- (packed_filter (m_dim m) D f Hf). fold pk.
    exact (filter_combine (fun fp : Z * (Z * Z * Z) => (fst fp =? f)%Z) (zrange 0 (lenZ pk)) pk ltac:(rewrite zrange_length; unfold lenZ; lia)). }
  assert (En : nthZ (map snd L) g = Some (f, p)) by (rewrite E, nthZ_map, Hg; reflexivity).
  rewrite nthZ_map in En. destruct (nthZ L g) as [[id fp]|] eqn:EL; [|discriminate]. cbn [option_map snd] in En. injection En as ->.
  unfold vec_of. rewrite nthZ_map, EL. cbn [option_map fst]. symmetry. apply HU.
  apply nthZ_In in EL. apply filter_In in EL. destruct EL as [EL _]. apply In_nthZ in EL. destruct EL as (i & _ & Hi).
  rewrite nthZ_combine_range in Hi. destruct (nthZ pk i) eqn:Ei; cbn [option_map] in Hi; [|discriminate]. injection Hi as <- <-. exact Ei.
Qed.

(** The vector a probe reads. *)
Definition field_vec (m : mesh) (D : dec) (f : Z) (U P : vec) : vec := if (f =? 3)%Z then P else vel_access m D U f.
Lemma field_vec_value m D f U P w : mfacts m D -> fieldok m f -> field_values m D f U P w ->
  forall g p, nthZ (field_layout D f) g = Some p -> field_vec m D f U P g = w p.
Proof.
  intros F Hf Hv g p Hg. unfold field_vec, field_values in *. destruct (Z.eqb_spec f 3) as [->|Hne].
  - symmetry. now apply Hv.
  - destruct Hf as [Hf| ->]; [|congruence]. eapply vel_access_value; eauto.
Qed.

Lemma pt_eqb_spec a b : pt_eqb a b = true <-> a = b.
Proof.
  destruct a as [[i j] k], b as [[i' j'] k']. unfold pt_eqb. rewrite !andb_true_iff, !Z.eqb_eq. split; [intros [[-> ->] ->]; reflexivity|intros E; injection E as -> -> ->; auto].
Qed.

Section Point.
Context (m : mesh) (D : dec) (Hs : mesh_setup m D) (f : Z) (Hf : (0 <= f < m_dim m)%Z).
Let F := setup_facts m D Hs.
Let Hdm := mf_dim _ _ F.

Lemma globalToLocal_ok v w r e0 : (0 <= r < nranks D)%Z ->
  (forall g p, nthZ (field_layout D f) g = Some p -> v g = w p) ->
  (forall q, has_image (m_n m f) (periodic_dir m) q = false -> e0 q = 0) ->
  globalToLocal m D v r f (map e0 (ghosted_points (m_dim m) D f r)) = Ok (map (probe_ext m f w) (ghosted_points (m_dim m) D f r)).
Proof.
  intros Hr Hv H0. unfold globalToLocal. set (gp := ghosted_points (m_dim m) D f r).
  assert (E : map (probe_ext m f w) gp = map (fun iq => probe_ext m f w (snd iq)) (combine (zrange 0 (lenZ gp)) gp)).
  { rewrite <- (map_map snd (probe_ext m f w)). f_equal. pose proof (filter_combine (fun _ => true) (zrange 0 (lenZ gp)) gp ltac:(rewrite zrange_length; unfold lenZ; lia)) as X.
    rewrite !(filter_all (fun _ => true)) in X by auto. symmetry.
    exact X. }
  rewrite E. apply mapM_ok. intros [id q] Hin. cbn [snd].
  assert (Hn : nthZ gp id = Some q).
  { apply In_nthZ in Hin. destruct Hin as (i & _ & Hi). rewrite nthZ_combine_range in Hi. change (Z * Z * Z)%type with pt in Hi. destruct (nthZ gp i) as [q0|] eqn:E0; cbn [option_map] in Hi; [|discriminate Hi]. injection Hi as <- <-. exact E0. }
  rewrite (has_image_diag m D f r q F (setup_diag m D Hs) Hf Hr (nthZ_In _ _ _ Hn)). unfold probe_ext.
  destruct (has_image _ _ q) eqn:Ei.
  - assert (Hin2 : In (image (m_n m f) q) (field_layout D f)).
    { apply (field_layout_In D (m_n m f) f); [apply (mf_dec _ _ F); auto|eapply image_in; eauto]. }
    destruct (findpos_In pt_eqb pt_eqb_spec _ _ 0%Z Hin2) as [g Eg]. rewrite Eg. f_equal. apply Hv.
    destruct (findpos_Some pt_eqb pt_eqb_spec _ _ _ _ Eg) as [_ Bg]. now rewrite Z.sub_0_r in Bg.
  - apply rd_Ok. rewrite nthZ_map. transitivity (option_map e0 (nthZ gp id)); [reflexivity|]. rewrite Hn. cbn [option_map]. f_equal. auto.
Qed.

Lemma local_at_value r e i j k : In (i, j, k) (ghosted_points (m_dim m) D f r) ->
  local_at (m_dim m) D f r (map e (ghosted_points (m_dim m) D f r)) i j k = Ok (e (i, j, k)).
Proof.
  intros Hin. unfold local_at. destruct (findpos_In pt_eqb pt_eqb_spec _ _ 0%Z Hin) as [g Eg]. rewrite Eg.
  destruct (findpos_Some pt_eqb pt_eqb_spec _ _ _ _ Eg) as [_ Bg]. rewrite Z.sub_0_r in Bg.
  apply rd_Ok. rewrite nthZ_map, Bg. reflexivity.
Qed.

Context (loc : Z -> R) (Hl : forall d, (0 <= d < m_dim m)%Z -> crd m f d 0 <= loc d < crd m f d (m_n m f d)).

(** The cell found by the search. *)
Definition cidx (d : Z) : Z := (lower_boundR (map (crd m f d) (zrange 0 (m_n m f d))) (loc d) - 1)%Z.
Lemma cidx_spec d : (0 <= d < m_dim m)%Z -> (-1 <= cidx d < m_n m f d)%Z /\ crd m f d (cidx d) < loc d <= crd m f d (cidx d + 1).
Proof.
  intros Hd. destruct (lower_line m D f d (loc d) Hs (or_introl Hf) Hd) as (A & B). unfold cidx.
  set (p := lower_boundR _ _) in *. specialize (Hl d Hd). split; [lia|]. replace (p - 1 + 1)%Z with p by lia. split.
  - destruct (Z.eq_dec p 0) as [E|E].
    + rewrite E. pose proof (mf_incr _ _ F f d (0 - 1) 0 Hf Hd ltac:(lia) ltac:(lia) ltac:(lia)). lra.
    + apply B; lia.
  - destruct (Z.eq_dec p (m_n m f d)) as [E|E]; [rewrite E; lra|].
    apply Rnot_lt_le. intros Hlt. apply B in Hlt; lia.
Qed.
Definition cell : pt := (cidx 0, cidx 1, if (m_dim m =? 3)%Z then cidx 2 else 0%Z).
Lemma cell_pc d : (0 <= d < m_dim m)%Z -> pc cell d = cidx d.
Proof.
  intros Hd. assert (d = 0 \/ d = 1 \/ d = 2)%Z as [->|[->| ->]] by (destruct Hdm; lia); try reflexivity.
  unfold cell. assert (m_dim m = 3)%Z as -> by (destruct Hdm; lia). reflexivity.
Qed.
Definition frac (d : Z) : R := (loc d - crd m f d (cidx d)) / (crd m f d (cidx d + 1) - crd m f d (cidx d)).
Lemma frac_range d : (0 <= d < m_dim m)%Z -> 0 <= frac d <= 1 /\ loc d = lerp (frac d) (crd m f d (pc cell d)) (crd m f d (pc cell d + 1)).
Proof.
  intros Hd. destruct (cidx_spec d Hd) as (A & B). rewrite cell_pc by auto. unfold frac, lerp.
  set (x0 := crd m f d (cidx d)) in *. set (x1 := crd m f d (cidx d + 1)) in *.
  split; [|field; lra]. split.
  - apply Rmult_le_pos; [lra|]. left. apply Rinv_0_lt_compat. lra.
  - apply Rmult_le_reg_r with (x1 - x0); [lra|]. replace ((loc d - x0) / (x1 - x0) * (x1 - x0)) with (loc d - x0) by (field; lra). lra.
Qed.
Lemma cell_in : in_cell m f cell loc.
Proof. intros d Hd. rewrite cell_pc by auto. destruct (cidx_spec d Hd). split; [auto|lra]. Qed.

Definition the_interp : linterp :=
  mkInterp (pvec m loc) (map cidx (zrange 0 (m_dim m))) (map (fun d => crd m f d (cidx d)) (zrange 0 (m_dim m)))
           (map (fun d => crd m f d (cidx d + 1)) (zrange 0 (m_dim m))).
Lemma rd_dirs {A} (g : Z -> A) d : (0 <= d < m_dim m)%Z -> rd (map g (zrange 0 (m_dim m))) d = Ok (g d).
Proof. intros Hd. apply rd_Ok. rewrite nthZ_map, nthZ_zrange by lia. reflexivity. Qed.

Lemma interp_created : createLinInterp m f (pvec m loc) = Ok the_interp.
Proof.
  unfold createLinInterp. assert (((m_dim m =? 2) || (m_dim m =? 3))%Z = true) as -> by (destruct Hdm; lia).
  unfold getBoxCoords, getBLGridlineIndices.
  rewrite (mapM_ok _ cidx).
  2:{ intros d Hd. apply zrange_In in Hd. rewrite (gridline_eq m D f d Hs (or_introl Hf) Hd). cbn [bind]. rewrite pvec_rd by auto. reflexivity. }
  cbn [bind]. rewrite (mapM_ok _ (fun d => crd m f d (cidx d))).
  2:{ intros d Hd. apply zrange_In in Hd. rewrite rd_dirs by auto. cbn [bind]. destruct (cidx_spec d Hd). apply (mf_coord _ _ F); auto; lia. }
  cbn [bind]. rewrite (mapM_ok _ (fun d => crd m f d (cidx d + 1))).
  2:{ intros d Hd. apply zrange_In in Hd. rewrite rd_dirs by auto. cbn [bind]. destruct (cidx_spec d Hd). apply (mf_coord _ _ F); auto; lia. }
  reflexivity.
Qed.

Lemma corner_ghosted r q : (0 <= r < nranks D)%Z -> isPointOnLocalProc m D r f (pvec m loc) = Ok true -> corner (m_dim m) cell q ->
  In q (ghosted_points (m_dim m) D f r).
Proof.
  intros Hr Hon Hq. apply ghosted_points_pc; auto. intros d Hd. specialize (Hq d Hd).
  destruct (on_proc_dec m D Hs f Hf r loc Hr) as (b & Eb & Hb). rewrite Hon in Eb. injection Eb as <-. pose proof (proj1 Hb eq_refl) as X.
  pose proof (local_range m D Hs f Hf r d Hr Hd) as Lr.
  destruct (Z.ltb_spec d (m_dim m)) as [H1|H1].
  - rewrite cell_pc in Hq by lia. destruct (cidx_spec d ltac:(lia)) as (A & B). specialize (X d ltac:(lia)).
    pose proof (crd_lt_inv m D Hs f Hf d (cidx d) (d_ed D f d r) ltac:(lia) ltac:(lia) ltac:(lia) ltac:(lra)).
    assert (d_bg D f d r <= cidx d + 1)%Z.
    { destruct (Z_le_dec (d_bg D f d r) (cidx d + 1)) as [Y|Y]; [auto|].
      pose proof (mf_incr _ _ F f d (cidx d + 1) (d_bg D f d r) Hf ltac:(lia) ltac:(lia) ltac:(lia) ltac:(lia)). lra. }
    lia.
  - assert (m_dim m = 2 /\ d = 2)%Z as [E2 ->] by (destruct Hdm; lia). destruct (flat_local m D Hs f Hf r Hr E2) as [-> ->]. lia.
Qed.

Lemma interpolate_value r e : (0 <= r < nranks D)%Z -> isPointOnLocalProc m D r f (pvec m loc) = Ok true ->
  interpolate (m_dim m) D f r the_interp (map e (ghosted_points (m_dim m) D f r)) = Ok (wsum (m_dim m) frac cell e).
Proof.
  intros Hr Hon.
  assert (Dv : forall d, (0 <= d < m_dim m)%Z -> cdiv (loc d - crd m f d (cidx d)) (crd m f d (cidx d + 1) - crd m f d (cidx d)) = Ok (frac d)).
  { intros d Hd. destruct (cidx_spec d Hd) as (_ & B). unfold cdiv. destruct (Req_EM_T _ 0) as [E|E]; [lra|reflexivity]. }
  assert (At : forall i j k, corner (m_dim m) cell (i, j, k) -> local_at (m_dim m) D f r (map e (ghosted_points (m_dim m) D f r)) i j k = Ok (e (i, j, k))).
  { intros i j k Hq. apply local_at_value. eapply corner_ghosted; eauto. }
  assert (Co : forall i j k, (i = cidx 0 \/ i = cidx 0 + 1)%Z -> (j = cidx 1 \/ j = cidx 1 + 1)%Z -> (if (m_dim m =? 2)%Z then k = 0%Z else (k = cidx 2 \/ k = cidx 2 + 1)%Z) ->
     local_at (m_dim m) D f r (map e (ghosted_points (m_dim m) D f r)) i j k = Ok (e (i, j, k))).
  { intros i j k A B C. apply At. apply corner_mk; auto. split; [exact A|]. split; [exact B|].
    destruct Hdm as [E|E]; rewrite E in C |- *; [exact C|]. unfold cell. rewrite E. exact C. }
  unfold interpolate. destruct Hdm as [E|E].
  - assert (Hd0 : (0 <= 0 < m_dim m)%Z) by lia. assert (Hd1 : (0 <= 1 < m_dim m)%Z) by lia.
    replace (m_dim m =? 2)%Z with true by lia. unfold interpolate2. cbn [li_idx li_target li_bl li_tr the_interp].
    rewrite !(rd_dirs _ 0 Hd0), !(rd_dirs _ 1 Hd1), !pvec_rd by auto. cbn [bind]. rewrite !Dv by auto. cbn [bind].
    replace (m_dim m =? 2)%Z with true in Co by lia. rewrite E in Co |- *. rewrite !Co by lia. cbn [bind]. reflexivity.
  - assert (Hd0 : (0 <= 0 < m_dim m)%Z) by lia. assert (Hd1 : (0 <= 1 < m_dim m)%Z) by lia. assert (Hd2 : (0 <= 2 < m_dim m)%Z) by lia.
    replace (m_dim m =? 2)%Z with false by lia. unfold interpolate3. cbn [li_idx li_target li_bl li_tr the_interp].
    rewrite !(rd_dirs _ 0 Hd0), !(rd_dirs _ 1 Hd1), !(rd_dirs _ 2 Hd2), !pvec_rd by auto. cbn [bind]. rewrite !Dv by auto. cbn [bind].
    replace (m_dim m =? 2)%Z with false in Co by lia. unfold cell. rewrite E in Co |- *. rewrite !Co by lia. cbn [bind]. reflexivity.
Qed.

(** The value is the interpolant. *)
Lemma wsum_interpolant e : interpolant m f e loc (wsum (m_dim m) frac cell e).
Proof.
  destruct (interpolant_exists m f cell e Hdm) as (g & Mg & Hg).
  { intros d Hd. rewrite cell_pc by auto. destruct (cidx_spec d Hd). lra. }
  exists cell, g. split; [apply cell_in|]. split; [exact Mg|]. split; [exact Hg|].
  rewrite <- (wsum_exact m f g frac cell loc Hdm Mg) by (intros; now apply frac_range).
  apply wsum_ext; auto. intros q Hq _. symmetry. auto.
Qed.

(** Below the last gridline only points of the field matter. *)
Lemma wsum_inner w e : (forall d, (0 <= d < m_dim m)%Z -> loc d <= crd m f d (m_n m f d - 1)) ->
  (forall q, interior (m_n m f) q -> e q = w q) -> wsum (m_dim m) frac cell (probe_ext m f w) = wsum (m_dim m) frac cell e.
Proof.
  intros Hin He. apply wsum_ext; auto. intros q Hq Ht.
  assert (Iq : interior (m_n m f) q).
  { apply interior_pc. intros d Hd. specialize (Hq d Hd). destruct (Z.ltb_spec d (m_dim m)) as [H1|H1].
    - rewrite cell_pc in Hq by lia. destruct (cidx_spec d ltac:(lia)) as (A & B). specialize (Hin d ltac:(lia)).
      pose proof (crd_lt_inv m D Hs f Hf d (cidx d) (m_n m f d - 1) ltac:(lia) ltac:(lia) ltac:(lia) ltac:(lra)).
      destruct (Z.eq_dec (cidx d) (-1)) as [E|E]; [|lia].
      specialize (Ht d ltac:(lia)). rewrite cell_pc in Ht by lia. rewrite Ht; [lia|].
      unfold frac. rewrite E in *. specialize (Hl d ltac:(lia)). replace (-1 + 1)%Z with 0%Z in * by lia.
      assert (loc d = crd m f d 0) as -> by lra. field. pose proof (mf_incr _ _ F f d (-1) 0 Hf ltac:(lia) ltac:(lia) ltac:(lia) ltac:(lia)). lra.
    - assert (m_dim m = 2)%Z as E2 by (destruct Hdm; lia). assert (d = 2)%Z as -> by lia. destruct (mf_flat _ _ F f (or_introl Hf) E2) as (-> & _). lia. }
  unfold probe_ext. destruct (interior_n_outside _ _ Iq) as (_ & _ & Eim).
  assert (has_image (m_n m f) (periodic_dir m) q = true) as ->.
  { apply has_image_pc. intros d Hd Ho. rewrite interior_pc in Iq. specialize (Iq d Hd). apply outside_spec in Ho. lia. }
  rewrite Eim. symmetry. auto.
Qed.
End Point.
