(** Properties of the discrete curl on the meshes of the program. *)
From Coq Require Import ZifyBool.
From Verif Require Import Prelude ZSum RSum TypesModel GridModel GridSpec GridProof MeshProof
  IndexModel IndexSpec IndexProof BoundaryModel BoundarySpec BoundaryProof OperatorModel OperatorSpec OperatorProof BStateProof GradProof
  NSModel ConvModel ConvSpec ConvProof VortModel VortSpec VortProof.
Local Open Scope R_scope.

(** * Positions *)
Lemma own_vertex m D b j : mesh_setup m D -> (0 <= b < m_dim m)%Z -> (0 <= j <= m_n m 3 b)%Z -> crd m b b (j - 1) = crd m 4 b j.
Proof.
  intros (mn & mx & per & w & np & Hg & Hm & Hper & Hnp & Hnp2 & HD) Hb Hj.
  destruct (mesh_vertex _ _ _ _ _ _ Hm b Hb) as (_ & V & _). destruct (mesh_pressure _ _ _ _ _ _ Hm b Hb) as (N & _).
  unfold crd. rewrite V by lia. destruct (per b b) eqn:E.
  - destruct (periodic_own_statement _ _ _ _ _ _ Hg Hm b (j - 1) Hb E ltac:(lia)) as [-> _]. cbn [ok_or]. f_equal. lia.
  - destruct (own_statement _ _ _ _ _ _ Hg Hm b Hb E) as (_ & C & _). rewrite C by lia. cbn [ok_or]. f_equal. lia.
Qed.
Lemma bracket m D f b j : mesh_setup m D -> (0 <= f < m_dim m)%Z -> (0 <= b < m_dim m)%Z -> f <> b -> (0 <= j <= m_n m 3 b)%Z ->
  crd m f b (j - 1) < crd m 4 b j < crd m f b j.
Proof.
  intros (mn & mx & per & w & np & Hg & Hm & Hper & Hnp & Hnp2 & HD) Hf Hb Hne Hj.
  destruct (mesh_vertex _ _ _ _ _ _ Hm b Hb) as (_ & V & _). destruct (mesh_pressure _ _ _ _ _ _ Hm b Hb) as (N & _).
  destruct (mesh_velocity _ _ _ _ _ _ Hg Hm f b Hf Hb) as (_ & C & _). unfold vn, vc in C. replace (f =? b)%Z with false in C by lia.
  destruct (axis_facts _ _ _ _ Hg b Hb) as (HN & Hp & Hmx).
  unfold crd. rewrite V by lia. destruct (C j ltac:(lia)) as [-> _]. destruct (C (j - 1)%Z ltac:(lia)) as [-> _]. cbn [ok_or].
  assert (W : forall i, (0 <= i < lenZ (w b))%Z -> 0 < wd (w b) i) by (intros i Hi; now apply positive_wd).
  pose proof (W 0%Z ltac:(lia)) as W0. pose proof (W (lenZ (w b) - 1)%Z ltac:(lia)) as WN.
  assert (C0 : forall i, (0 <= i < lenZ (w b))%Z -> vtx (mn b) (w b) i < ctr (mn b) (w b) i < vtx (mn b) (w b) (i + 1)).
  { intros i Hi. unfold ctr. rewrite vtx_S by auto. pose proof (W i Hi). lra. }
  unfold oth_c. split.
  - destruct (Z.eqb_spec (j - 1) (-1)) as [E|E].
    + replace j with 0%Z by lia. rewrite vtx_0. destruct (per f b); lra.
    + destruct (Z.eqb_spec (j - 1) (lenZ (w b))); [lia|]. pose proof (C0 (j - 1)%Z ltac:(lia)) as X. replace (j - 1 + 1)%Z with j in X by lia. lra.
  - destruct (Z.eqb_spec j (-1)); [lia|]. destruct (Z.eqb_spec j (lenZ (w b))) as [->|E].
    + rewrite vtx_end. destruct (per f b); lra.
    + pose proof (C0 j ltac:(lia)). lra.
Qed.
Lemma gap m D f b j : mesh_setup m D -> (0 <= f < m_dim m)%Z -> (0 <= b < m_dim m)%Z -> f <> b -> (1 <= j <= m_n m 3 b - 1)%Z ->
  wid m b b (j - 1) = crd m f b j - crd m f b (j - 1).
Proof.
  intros (mn & mx & per & w & np & Hg & Hm & Hper & Hnp & Hnp2 & HD) Hf Hb Hne Hj.
  destruct (mesh_pressure _ _ _ _ _ _ Hm b Hb) as (N & PB & _).
  destruct (periodic_other_statement _ _ _ _ _ _ Hg Hm f b j Hf Hb Hne ltac:(lia)) as [C1 _].
  destruct (periodic_other_statement _ _ _ _ _ _ Hg Hm f b (j - 1) Hf Hb Hne ltac:(lia)) as [C0 _].
  unfold crd, wid. rewrite C1, C0. destruct (PB j ltac:(lia)) as [-> _]. destruct (PB (j - 1)%Z ltac:(lia)) as [-> _]. cbn [ok_or].
  assert (E : m_dL m b b (j - 1) = Ok ((vtx (mn b) (w b) (j - 1 + 2) - vtx (mn b) (w b) (j - 1)) / 2)).
  { destruct (per b b) eqn:E.
    - destruct (periodic_own_statement _ _ _ _ _ _ Hg Hm b (j - 1) Hb E ltac:(lia)) as [_ W]. apply W. lia.
    - destruct (own_statement _ _ _ _ _ _ Hg Hm b Hb E) as (_ & _ & W & _). apply W. lia. }
  rewrite E. cbn [ok_or]. unfold ctr. replace (j - 1 + 1)%Z with j by lia. replace (j - 1 + 2)%Z with (j + 1)%Z by lia. lra.
Qed.

Lemma plane_dirs m a : (m_dim m = 2 \/ m_dim m = 3)%Z -> (0 <= a < 3)%Z -> (a < 2 -> m_dim m = 3)%Z ->
  (0 <= next_dir a < m_dim m)%Z /\ (0 <= next_dir (next_dir a) < m_dim m)%Z.
Proof. intros Hdim Ha H3. destruct (pt_cases a Ha) as [->|[->| ->]]; cbn; lia. Qed.

(** * Linear fields *)
Lemma linear_along m D c g f p d s : mesh_setup m D -> (0 <= d < m_dim m)%Z ->
  linear_velocity m c g f (shift p d s) = linear_velocity m c g f p + g f d * (crd m f d (pc p d + s) - crd m f d (pc p d)).
Proof.
  intros Hs Hd. pose proof (mf_dim _ _ (setup_facts _ _ Hs)) as Hdim. unfold linear_velocity.
  assert (X : zsum (fun e => g f e * crd m f e (pc (shift p d s) e)) 0 (m_dim m) =
              zsum (fun e => g f e * crd m f e (pc p e)) 0 (m_dim m) + g f d * (crd m f d (pc p d + s) - crd m f d (pc p d))); [|lra].
  pose proof (sumR_single (fun e => if (e =? d)%Z then g f e * (crd m f e (pc p e + s) - crd m f e (pc p e)) else 0) (zrange 0 (m_dim m)) d (zrange_NoDup 0 (m_dim m))
    (proj2 (zrange_In 0 (m_dim m) d) Hd)) as S. cbv beta in S. rewrite Z.eqb_refl in S. rewrite <- S by (intros y _ Hy; now replace (y =? d)%Z with false by lia).
  unfold zsum. rewrite <- sumR_plus. apply sumR_ext. intros e He. apply zrange_In in He. rewrite pc_shift2 by lia.
  destruct (Z.eqb_spec e d); subst; lra.
Qed.
Lemma curl_linear m D c g a p : mesh_setup m D -> (0 <= a < 3)%Z -> (a < 2 -> m_dim m = 3)%Z -> vort_point m a p ->
  curl m (linear_velocity m c g) a p = g (next_dir (next_dir a)) (next_dir a) - g (next_dir a) (next_dir (next_dir a)).
Proof.
  intros Hs Ha H3 Hp. pose proof (setup_facts _ _ Hs) as F. destruct (next_cases a Ha) as (Hb & Nb & Nc & Ncb & Hc & _).
  destruct (plane_dirs m a (mf_dim _ _ F) Ha H3) as [Hbd Hcd]. unfold curl. set (b := next_dir a) in *. set (cc := next_dir b) in *.
  rewrite (linear_along m D c g cc (shift p cc (-1)) b) by auto. rewrite (linear_along m D c g b (shift p b (-1)) cc) by auto.
  rewrite !pc_shift2 by auto. replace (b =? cc)%Z with false by lia. replace (cc =? b)%Z with false by lia.
  pose proof (Hp b Hb) as Pb. pose proof (Hp cc Hc) as Pc. replace (b =? a)%Z with false in Pb by lia. replace (cc =? a)%Z with false in Pc by lia.
  assert (Hbb : crd m cc b (pc p b - 1) < crd m cc b (pc p b)).
  { apply (mf_incr _ _ F); auto; try lia. rewrite (mf_n_oth _ _ F) by auto. lia. }
  assert (Hccc : crd m b cc (pc p cc - 1) < crd m b cc (pc p cc)).
  { apply (mf_incr _ _ F); auto; try lia. rewrite (mf_n_oth _ _ F) by auto. lia. }
  replace (pc p b + -1)%Z with (pc p b - 1)%Z by lia. replace (pc p cc + -1)%Z with (pc p cc - 1)%Z by lia. field. split; lra.
Qed.

(** * Gradients *)
Lemma shift_shift p d s t : shift (shift p d s) d t = shift p d (s + t).
Proof. destruct p as [[i j] k]. unfold shift, setc, pc. destruct (Z.eqb_spec d 0); [f_equal; f_equal; lia|]. destruct (Z.eqb_spec d 1); [|f_equal; lia]. f_equal. f_equal. lia. Qed.
Lemma shift_comm p d e s t : (0 <= d < 3)%Z -> (0 <= e < 3)%Z -> d <> e -> shift (shift p d s) e t = shift (shift p e t) d s.
Proof. intros Hd He H. destruct p as [[i j] k]. destruct (pt_cases d Hd) as [->|[->| ->]], (pt_cases e He) as [->|[->| ->]]; cbn; congruence. Qed.
Lemma shift_0 p d : shift p d 0 = p.
Proof. destruct p as [[i j] k]. unfold shift, setc, pc. destruct (Z.eqb_spec d 0); [f_equal; f_equal; lia|]. destruct (Z.eqb_spec d 1); [|f_equal; lia]. f_equal. f_equal. lia. Qed.
Lemma image_id n p : interior n p -> image n p = p.
Proof. intros H. now apply interior_n_outside. Qed.
Lemma curl_gradient m D P a p : mesh_setup m D -> (0 <= a < 3)%Z -> (a < 2 -> m_dim m = 3)%Z -> vort_point m a p ->
  (forall d, (0 <= d < m_dim m)%Z -> d <> a -> (1 <= pc p d <= m_n m 3 d - 1)%Z) ->
  curl m (gradient_at m false P) a p = 0.
Proof.
  intros Hs Ha H3 Hp Hin. pose proof (setup_facts _ _ Hs) as F. pose proof (mf_dim _ _ F) as Hdim.
  destruct (next_cases a Ha) as (Hb & Nb & Nc & Ncb & Hc & Hall).
  destruct (plane_dirs m a Hdim Ha H3) as [Hbd Hcd]. unfold curl. set (b := next_dir a) in *. set (c := next_dir b) in *.
  pose proof (Hin b Hbd Nb) as Ib. pose proof (Hin c Hcd Nc) as Ic.
  assert (Int : forall sb sc, (sb = 0 \/ sb = -1)%Z -> (sc = 0 \/ sc = -1)%Z -> interior (m_n m 3) (shift (shift p b sb) c sc)).
  { intros sb sc Hsb Hsc. apply interior_pc. intros d Hd. rewrite !pc_shift2 by auto. pose proof (Hp d Hd) as Pd. destruct (Hall d Hd) as [->|[->| ->]].
    - rewrite Z.eqb_refl in Pd. replace (a =? c)%Z with false by lia. replace (a =? b)%Z with false by lia. lia.
    - replace (b =? c)%Z with false by lia. rewrite Z.eqb_refl. lia.
    - rewrite Z.eqb_refl. replace (c =? b)%Z with false by lia. lia. }
  unfold gradient_at. rewrite !shift_shift.
  rewrite (shift_comm (shift p c (-1)) b c) by auto. rewrite !shift_shift.
  rewrite (shift_comm (shift p b (-1)) c b) by auto. rewrite !shift_shift. change (-1 + 1)%Z with 0%Z. rewrite !shift_0.
  rewrite (shift_comm p c b) by auto.
  assert (Z00 : interior (m_n m 3) p) by (specialize (Int 0%Z 0%Z (or_introl eq_refl) (or_introl eq_refl)); rewrite !shift_0 in Int; exact Int).
  assert (Z10 : interior (m_n m 3) (shift p b (-1))) by (specialize (Int (-1)%Z 0%Z (or_intror eq_refl) (or_introl eq_refl)); rewrite !shift_0 in Int; exact Int).
  assert (Z01 : interior (m_n m 3) (shift p c (-1))) by (specialize (Int 0%Z (-1)%Z (or_introl eq_refl) (or_intror eq_refl)); rewrite !shift_0 in Int; exact Int).
  rewrite !image_id by auto. rewrite !pc_shift2 by auto. rewrite !Z.eqb_refl. replace (c =? b)%Z with false by lia. replace (b =? c)%Z with false by lia.
  replace (pc p b + -1)%Z with (pc p b - 1)%Z by lia. replace (pc p c + -1)%Z with (pc p c - 1)%Z by lia.
  rewrite (gap m D c b) by auto. rewrite (gap m D b c) by auto.
  assert (Hbb : crd m c b (pc p b - 1) < crd m c b (pc p b)).
  { apply (mf_incr _ _ F); auto; try lia. rewrite (mf_n_oth _ _ F) by auto. lia. }
  assert (Hccc : crd m b c (pc p c - 1) < crd m b c (pc p c)).
  { apply (mf_incr _ _ F); auto; try lia. rewrite (mf_n_oth _ _ F) by auto. lia. }
  field. split; lra.
Qed.

(** * Circulation *)
Lemma shift_setc p d x s : (0 <= d < 3)%Z -> shift (setc p d x) d s = setc p d (x + s).
Proof. intros Hd. destruct p as [[i j] k]. destruct (pt_cases d Hd) as [->|[->| ->]]; cbn; reflexivity. Qed.
Lemma shift_setc_other p d e x s : (0 <= d < 3)%Z -> (0 <= e < 3)%Z -> d <> e -> shift (setc p d x) e s = setc (shift p e s) d x.
Proof. intros Hd He H. destruct p as [[i j] k]. destruct (pt_cases d Hd) as [->|[->| ->]], (pt_cases e He) as [->|[->| ->]]; cbn; congruence. Qed.
Lemma setc_comm p d e x y : (0 <= d < 3)%Z -> (0 <= e < 3)%Z -> d <> e -> setc (setc p d x) e y = setc (setc p e y) d x.
Proof. intros Hd He H. destruct p as [[i j] k]. destruct (pt_cases d Hd) as [->|[->| ->]], (pt_cases e He) as [->|[->| ->]]; cbn; congruence. Qed.
Lemma zsum_plus f g a b : zsum (fun i => f i + g i) a b = zsum f a b + zsum g a b.
Proof. unfold zsum. symmetry. rewrite <- sumR_plus. reflexivity. Qed.
Lemma zsum_scal c f a b : zsum (fun i => c * f i) a b = c * zsum f a b.
Proof. unfold zsum. now rewrite <- sumR_scal. Qed.
Lemma zsum_swap (f : Z -> Z -> R) a b c d : zsum (fun i => zsum (fun j => f i j) c d) a b = zsum (fun j => zsum (fun i => f i j) a b) c d.
Proof. unfold zsum. apply sumR_swap. Qed.

Lemma stokes m D u a p b0 b1 c0 c1 : mesh_setup m D -> (0 <= a < 3)%Z -> (a < 2 -> m_dim m = 3)%Z ->
  (0 <= b0 <= b1)%Z -> (b1 <= m_n m 3 (next_dir a) + 1)%Z -> (0 <= c0 <= c1)%Z -> (c1 <= m_n m 3 (next_dir (next_dir a)) + 1)%Z ->
  zsum (fun j => zsum (fun k => let q := setc (setc p (next_dir a) j) (next_dir (next_dir a)) k in dual_area m a q * curl m u a q) c0 c1) b0 b1
  = circulation m u a p b0 b1 c0 c1.
Proof.
  intros Hs Ha H3 Hb0 Hb1 Hc0 Hc1. pose proof (setup_facts _ _ Hs) as F. pose proof (mf_dim _ _ F) as Hdim.
  destruct (next_cases a Ha) as (Hb & Nb & Nc & Ncb & Hc & _). destruct (plane_dirs m a Hdim Ha H3) as [Hbd Hcd].
  unfold dual_area, curl, circulation. set (b := next_dir a) in *. set (c := next_dir b) in *. cbv zeta.
  set (U := fun j k => u c (setc (setc p c (k - 1)) b j)). set (V := fun k j => u b (setc (setc p b (j - 1)) c k)).
  set (dc := fun k => crd m b c k - crd m b c (k - 1)). set (db := fun j => crd m c b j - crd m c b (j - 1)).
  transitivity (zsum (fun j => zsum (fun k => (U j k - U (j - 1)%Z k) * dc k + (-1) * ((V k j - V (k - 1)%Z j) * db j)) c0 c1) b0 b1).
  { apply zsum_ext. intros j Hj. apply zsum_ext. intros k Hk.
    rewrite !pc_setc by auto. rewrite !Z.eqb_refl. replace (b =? c)%Z with false by lia. fold (db j) (dc k).
    assert (Db : 0 < db j). { unfold db. assert (crd m c b (j - 1) < crd m c b j); [|lra]. apply (mf_incr _ _ F); auto; try lia. rewrite (mf_n_oth _ _ F) by auto. lia. }
    assert (Dc : 0 < dc k). { unfold dc. assert (crd m b c (k - 1) < crd m b c k); [|lra]. apply (mf_incr _ _ F); auto; try lia. rewrite (mf_n_oth _ _ F) by auto. lia. }
    unfold U, V. rewrite !shift_setc by auto. rewrite (shift_setc_other _ c b) by auto. rewrite (shift_setc_other _ c b) by auto.
    rewrite !shift_setc by auto. rewrite (setc_comm p c b) by auto. rewrite (setc_comm p c b) by auto.
    rewrite ?shift_setc by auto. replace (k + -1)%Z with (k - 1)%Z by lia. replace (j + -1)%Z with (j - 1)%Z by lia. field. split; lra. }
  rewrite (zsum_ext _ (fun j => zsum (fun k => (U j k - U (j - 1)%Z k) * dc k) c0 c1 + (-1) * zsum (fun k => (V k j - V (k - 1)%Z j) * db j) c0 c1)).
  2:{ intros j Hj. now rewrite zsum_plus, zsum_scal. }
  rewrite zsum_plus, zsum_scal. rewrite zsum_swap.
  replace (zsum (fun k => zsum (fun j => (U j k - U (j - 1)%Z k) * dc k) b0 b1) c0 c1) with (zsum (fun k => (U (b1 - 1)%Z k - U (b0 - 1)%Z k) * dc k) c0 c1).
  2:{ apply zsum_ext. intros k Hk. rewrite <- (zsum_telescope_m (fun j => U j k)) by lia. rewrite Rmult_comm, <- zsum_scal. apply zsum_ext. intros; lra. }
  replace (zsum (fun j => zsum (fun k => (V k j - V (k - 1)%Z j) * db j) c0 c1) b0 b1) with (zsum (fun j => (V (c1 - 1)%Z j - V (c0 - 1)%Z j) * db j) b0 b1).
  2:{ apply zsum_ext. intros j Hj. rewrite <- (zsum_telescope_m (fun k => V k j)) by lia. rewrite Rmult_comm, <- zsum_scal. apply zsum_ext. intros; lra. }
  unfold U, V, dc, db. lra.
Qed.
