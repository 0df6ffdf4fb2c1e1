(** The delta operator around points of uniform cells. *)
From Coq Require Import String ZifyBool.
From Verif Require Import Prelude ZSum RSum TypesModel GridModel GridSpec GridProof MeshProof IndexModel IndexSpec IndexProof
  BoundaryModel BoundarySpec BoundaryProof OperatorModel OperatorSpec OperatorProof BStateProof BodyModel BodySpec BodyProof BodyUse
  DeltaModel DeltaSpec DeltaKernel.
Local Open Scope R_scope.

(** * Geometry *)
Lemma vtx_uniform mn w h k : (forall i, (0 <= i < lenZ w)%Z -> wd w i = h) -> (0 <= k <= lenZ w)%Z ->
  vtx mn w k = mn + IZR k * h.
Proof.
  intros H Hk. assert (K0 : (0 <= k)%Z) by lia. revert Hk. pattern k. apply (zrange_ind_up _ 0); [| |exact K0].
  - intros _. rewrite vtx_0. lra.
  - intros j Hj IH Hk. rewrite vtx_S by lia. rewrite IH by lia. rewrite H by lia. rewrite plus_IZR. lra.
Qed.

(** Position of point i of component f along direction d, in cells. *)
Definition upos (f d i : Z) : R := IZR i + (if (f =? d)%Z then 1 else 1/2).

Section Uniform.
Context (m : mesh) (D : dec) (h : Z -> R) (Hs : mesh_setup m D) (Hu : uniform m h).
Let F := setup_facts m D Hs.

Lemma uni_pos d : (0 <= d < m_dim m)%Z -> 0 < h d.
Proof.
  intros Hd. destruct (Hu d Hd) as [_ U]. pose proof (mf_np _ _ F 3%Z d (or_intror eq_refl) ltac:(destruct (mf_dim _ _ F); lia)) as N.
  rewrite <- (U 0%Z) by lia. apply (mf_pwid _ _ F); lia.
Qed.

Lemma uni_crd f d i : (0 <= f < m_dim m)%Z -> (0 <= d < m_dim m)%Z -> (-1 <= i <= m_n m f d)%Z ->
  crd m f d i = m_min m d + upos f d i * h d.
Proof.
  intros Hf Hd Hi. pose proof Hs as (mn & mx & per & w & np & Hg & Hm & _).
  destruct (createMesh_misc _ _ _ _ _ _ Hm) as (_ & -> & _ & _).
  destruct (mesh_velocity _ _ _ _ _ _ Hg Hm f d Hf Hd) as (En & Hc & _). rewrite En in Hi.
  destruct (Hc i Hi) as [Ec _]. unfold crd. rewrite Ec. cbn [ok_or].
  destruct (mesh_pressure _ _ _ _ _ _ Hm d Hd) as (E3 & H3 & _).
  destruct (Hu d Hd) as [_ U]. rewrite E3 in U.
  assert (W : forall j, (0 <= j < lenZ (w d))%Z -> wd (w d) j = h d).
  { intros j Hj. rewrite <- (U j Hj). unfold wid. rewrite (proj2 (H3 j Hj)). cbn [ok_or]. rewrite vtx_S by lia. lra. }
  assert (V := fun k => vtx_uniform (mn d) (w d) (h d) k W).
  destruct (axis_facts _ _ _ _ Hg d Hd) as (Hne & _ & _).
  pose proof (vtx_end (mn d) (w d)) as VE. rewrite V in VE by lia.
  unfold vc, vn, upos in *. destruct (Z.eqb_spec f d) as [E|E].
  - unfold own_c, own_n in *. destruct (Z.leb_spec i (lenZ (w d) - 1)).
    + rewrite V by lia. rewrite plus_IZR. lra.
    + assert (i = lenZ (w d)) by (destruct (per f d); lia). subst i. rewrite W by lia. lra.
  - unfold oth_c. destruct (Z.eqb_spec i (-1)) as [->|H1].
    + destruct (per f d); rewrite W by lia; lra.
    + destruct (Z.eqb_spec i (lenZ (w d))) as [->|H2].
      * destruct (per f d); rewrite W by lia; lra.
      * unfold ctr. rewrite !V by lia. rewrite plus_IZR. lra.
Qed.

Lemma uni_wid f d i : (0 <= f < m_dim m)%Z -> (0 <= d < m_dim m)%Z -> (-1 <= i <= m_n m f d)%Z -> wid m f d i = h d.
Proof.
  intros Hf Hd Hi. pose proof Hs as (mn & mx & per & w & np & Hg & Hm & _).
  destruct (mesh_velocity _ _ _ _ _ _ Hg Hm f d Hf Hd) as (En & Hc & _). rewrite En in Hi.
  destruct (Hc i Hi) as [_ Ec]. unfold wid. rewrite Ec. cbn [ok_or].
  destruct (mesh_pressure _ _ _ _ _ _ Hm d Hd) as (E3 & H3 & _).
  destruct (Hu d Hd) as [_ U]. rewrite E3 in U.
  assert (W : forall j, (0 <= j < lenZ (w d))%Z -> wd (w d) j = h d).
  { intros j Hj. rewrite <- (U j Hj). unfold wid. rewrite (proj2 (H3 j Hj)). cbn [ok_or]. rewrite vtx_S by lia. lra. }
  destruct (axis_facts _ _ _ _ Hg d Hd) as (Hne & _ & _).
  unfold vw, vn in *. destruct (Z.eqb_spec f d) as [E|E].
  - unfold own_w, own_n in *. cbv zeta.
    destruct (per f d) eqn:P.
    + destruct ((i =? -1)%Z || (i =? lenZ (w d) - 1)%Z) eqn:B1; [rewrite !W by lia; lra|].
      destruct (i =? lenZ (w d))%Z eqn:B2; [destruct (lenZ (w d) =? 1)%Z eqn:B3; rewrite !W by lia; lra|].
      rewrite !W by lia. lra.
    + destruct (i =? -1)%Z eqn:B1; [rewrite !W by lia; lra|].
      destruct (i =? lenZ (w d) - 1)%Z eqn:B2; rewrite !W by lia; lra.
  - unfold oth_w. cbv zeta. destruct (i =? -1)%Z eqn:B1; [destruct (per f d); rewrite W by lia; lra|].
    destruct (i =? lenZ (w d))%Z eqn:B2; [destruct (per f d); rewrite W by lia; lra|]. rewrite W by lia. lra.
Qed.

Lemma uni_host d x k : (0 <= d < m_dim m)%Z -> host_index m d x = Ok k ->
  (0 <= k < m_n m 3 d)%Z /\ m_min m d + IZR k * h d <= x < m_min m d + (IZR k + 1) * h d /\ m_min m d < x < m_max m d.
Proof.
  intros Hd E. pose proof Hs as (mn & mx & per & w & np & Hg & Hm & _).
  destruct (createMesh_misc _ _ _ _ _ _ Hm) as (_ & Emin & Emax & _). rewrite Emin, Emax.
  assert (Hx : mn d < x < mx d).
  { destruct (Rlt_dec (mn d) x), (Rlt_dec x (mx d)); try lra;
      rewrite (host_rejects _ _ _ _ _ _ Hm d x) in E by lra; discriminate. }
  destruct (host_ok _ _ _ _ _ _ Hg Hm d x Hd Hx) as (k' & E' & Hk & Hv). rewrite E in E'. injection E' as <-.
  destruct (mesh_pressure _ _ _ _ _ _ Hm d Hd) as (E3 & H3 & _).
  destruct (Hu d Hd) as [_ U]. rewrite E3 in U.
  assert (W : forall j, (0 <= j < lenZ (w d))%Z -> wd (w d) j = h d).
  { intros j Hj. rewrite <- (U j Hj). unfold wid. rewrite (proj2 (H3 j Hj)). cbn [ok_or]. rewrite vtx_S by lia. lra. }
  assert (V := fun k => vtx_uniform (mn d) (w d) (h d) k W). rewrite !V in Hv by lia. rewrite plus_IZR in Hv.
  split; [lia|]. split; [lra|auto].
Qed.

Lemma n_own_oth f d : (0 <= f < m_dim m)%Z -> (0 <= d < m_dim m)%Z -> (m_n m 3 d - 1 <= m_n m f d <= m_n m 3 d)%Z.
Proof.
  intros Hf Hd. destruct (Z.eq_dec f d) as [->|E].
  - rewrite (mf_n_own _ _ F d Hd). destruct (periodic_dir m d); lia.
  - rewrite (mf_n_oth _ _ F f d Hf ltac:(destruct (mf_dim _ _ F); lia) E). lia.
Qed.

End Uniform.

(** * Any mesh: vertices, cells, points *)
Section Cells.
Context (m : mesh) (D : dec) (Hs : mesh_setup m D).
Let F := setup_facts m D Hs.

Lemma vert_step d k : (0 <= d < m_dim m)%Z -> (0 <= k < m_n m 3 d)%Z ->
  crd m 4 d (k + 1) = crd m 4 d k + wid m 3 d k /\ 0 < wid m 3 d k.
Proof.
  intros Hd Hk. split; [|now apply (mf_pwid _ _ F)]. pose proof Hs as (mn & mx & per & w & np & Hg & Hm & _).
  destruct (mesh_vertex _ _ _ _ _ _ Hm d Hd) as (_ & Hv & _). destruct (mesh_pressure _ _ _ _ _ _ Hm d Hd) as (E3 & H3 & _).
  rewrite E3 in Hk. unfold crd, wid. rewrite !Hv by lia. rewrite (proj2 (H3 k Hk)). cbn [ok_or]. lra.
Qed.

Lemma vert_ends d : (0 <= d < m_dim m)%Z -> crd m 4 d 0 = m_min m d /\ crd m 4 d (m_n m 3 d) = m_max m d.
Proof.
  intros Hd. pose proof Hs as (mn & mx & per & w & np & Hg & Hm & _). destruct (createMesh_misc _ _ _ _ _ _ Hm) as (_ & -> & -> & _).
  destruct (mesh_vertex _ _ _ _ _ _ Hm d Hd) as (_ & Hv & _). destruct (mesh_pressure _ _ _ _ _ _ Hm d Hd) as (E3 & _ & _).
  destruct (axis_facts _ _ _ _ Hg d Hd) as (Hne & _ & Hmx). rewrite E3. unfold crd. rewrite !Hv by lia. cbn [ok_or]. rewrite vtx_0, vtx_end. auto.
Qed.

Lemma vert_le d i j : (0 <= d < m_dim m)%Z -> (0 <= i <= j)%Z -> (j <= m_n m 3 d)%Z -> crd m 4 d i <= crd m 4 d j.
Proof.
  intros Hd Hi Hj. revert Hj. pattern j. apply (zrange_ind_up _ i); [| |lia].
  - intros. lra.
  - intros b Hb IH H. destruct (vert_step d b Hd ltac:(lia)) as [-> P]. specialize (IH ltac:(lia)). lra.
Qed.

Lemma host_cell d x k : (0 <= d < m_dim m)%Z -> host_index m d x = Ok k -> cell_of m d k x /\ m_min m d < x < m_max m d.
Proof.
  intros Hd E. pose proof Hs as (mn & mx & per & w & np & Hg & Hm & _).
  destruct (createMesh_misc _ _ _ _ _ _ Hm) as (_ & Emin & Emax & _). rewrite Emin, Emax.
  assert (Hx : mn d < x < mx d).
  { destruct (Rlt_dec (mn d) x), (Rlt_dec x (mx d)); try lra;
      rewrite (host_rejects _ _ _ _ _ _ Hm d x) in E by lra; discriminate. }
  destruct (host_ok _ _ _ _ _ _ Hg Hm d x Hd Hx) as (k' & E' & Hk & Hv). rewrite E in E'. injection E' as <-.
  destruct (mesh_pressure _ _ _ _ _ _ Hm d Hd) as (E3 & _ & _). destruct (mesh_vertex _ _ _ _ _ _ Hm d Hd) as (_ & Hv4 & _).
  split; [|exact Hx]. unfold cell_of, crd. rewrite !Hv4, E3 by lia. cbn [ok_or]. auto.
Qed.

Lemma host_exists d x : (0 <= d < m_dim m)%Z -> m_min m d < x < m_max m d -> exists k, host_index m d x = Ok k.
Proof.
  intros Hd Hx. pose proof Hs as (mn & mx & per & w & np & Hg & Hm & _).
  destruct (createMesh_misc _ _ _ _ _ _ Hm) as (_ & Emin & Emax & _). rewrite Emin, Emax in Hx.
  destruct (host_ok _ _ _ _ _ _ Hg Hm d x Hd Hx) as (k & E & _). eauto.
Qed.

Lemma cell_unique d x k k' : (0 <= d < m_dim m)%Z -> cell_of m d k x -> cell_of m d k' x -> k = k'.
Proof.
  intros Hd (R1 & H1) (R2 & H2). destruct (Z.lt_trichotomy k k') as [L|[E|L]]; [|exact E|].
  - pose proof (vert_le d (k + 1) k' Hd ltac:(lia) ltac:(lia)). lra.
  - pose proof (vert_le d (k' + 1) k Hd ltac:(lia) ltac:(lia)). lra.
Qed.

Lemma vel_crd f d s : (0 <= f < m_dim m)%Z -> (0 <= d < m_dim m)%Z -> (0 <= s < m_n m f d)%Z ->
  crd m f d s = if (f =? d)%Z then crd m 4 d (s + 1) else (crd m 4 d s + crd m 4 d (s + 1)) / 2.
Proof.
  intros Hf Hd Hi. pose proof Hs as (mn & mx & per & w & np & Hg & Hm & _).
  destruct (mesh_velocity _ _ _ _ _ _ Hg Hm f d Hf Hd) as (En & Hc & _). rewrite En in Hi.
  destruct (mesh_vertex _ _ _ _ _ _ Hm d Hd) as (_ & Hv & _).
  destruct (Hc s ltac:(lia)) as [Ec _]. unfold crd. rewrite Ec. cbn [ok_or]. unfold vc, vn in *.
  destruct (Z.eqb_spec f d) as [E|E].
  - unfold own_c, own_n in *. destruct (Z.leb_spec s (lenZ (w d) - 1)); [|destruct (per f d); lia]. rewrite Hv by lia. reflexivity.
  - unfold oth_c. destruct (Z.eqb_spec s (-1)); [lia|]. destruct (Z.eqb_spec s (lenZ (w d))); [lia|]. rewrite !Hv by lia. reflexivity.
Qed.

Lemma vel_ghosts f d : (0 <= f < m_dim m)%Z -> (0 <= d < m_dim m)%Z -> crd m f d (-1) <= m_min m d /\ m_max m d <= crd m f d (m_n m f d).
Proof.
  intros Hf Hd. pose proof Hs as (mn & mx & per & w & np & Hg & Hm & _). destruct (createMesh_misc _ _ _ _ _ _ Hm) as (_ & -> & -> & _).
  destruct (mesh_velocity _ _ _ _ _ _ Hg Hm f d Hf Hd) as (En & Hc & _). destruct (axis_facts _ _ _ _ Hg d Hd) as (Hne & Hpos & ->).
  pose proof (positive_wd (w d) 0 Hpos ltac:(lia)) as P0. pose proof (positive_wd (w d) (lenZ (w d) - 1) Hpos ltac:(lia)) as P1.
  assert (N0 : (0 <= vn per w f d)%Z) by (unfold vn, own_n; destruct (f =? d)%Z; [destruct (per f d)|]; lia).
  rewrite En. unfold crd. rewrite (proj1 (Hc (-1)%Z ltac:(lia))), (proj1 (Hc (vn per w f d) ltac:(lia))). cbn [ok_or]. unfold vc, vn.
  destruct (Z.eqb_spec f d) as [E|E].
  - unfold own_c, own_n. destruct (Z.leb_spec (-1) (lenZ (w d) - 1)); [|lia]. change (-1 + 1)%Z with 0%Z. rewrite vtx_0. split; [lra|].
    destruct (per f d).
    + destruct (Z.leb_spec (lenZ (w d)) (lenZ (w d) - 1)); [lia|]. lra.
    + destruct (Z.leb_spec (lenZ (w d) - 1) (lenZ (w d) - 1)); [|lia]. replace (lenZ (w d) - 1 + 1)%Z with (lenZ (w d)) by lia. rewrite vtx_end. lra.
  - unfold oth_c. change (-1 =? -1)%Z with true. cbv iota. destruct (Z.eqb_spec (lenZ (w d)) (-1)); [lia|]. rewrite Z.eqb_refl.
    destruct (per f d); lra.
Qed.

Lemma vel_wid f d s : (0 <= f < m_dim m)%Z -> (0 <= d < m_dim m)%Z -> (0 <= s < m_n m 3 d)%Z ->
  wid m f d s = if (f =? d)%Z then
     (if (s =? m_n m 3 d - 1)%Z then (if periodic_dir m d then (wid m 3 d 0 + wid m 3 d s) / 2 else wid m 3 d s) else (wid m 3 d s + wid m 3 d (s + 1)) / 2)
  else wid m 3 d s.
Proof.
  intros Hf Hd Hi. pose proof Hs as (mn & mx & per & w & np & Hg & Hm & Hper & _).
  destruct (createMesh_misc _ _ _ _ _ _ Hm) as (_ & _ & _ & Epr).
  destruct (mesh_velocity _ _ _ _ _ _ Hg Hm f d Hf Hd) as (En & Hc & _).
  destruct (mesh_pressure _ _ _ _ _ _ Hm d Hd) as (E3 & H3 & _). rewrite E3 in *.
  assert (W : forall j, (0 <= j < lenZ (w d))%Z -> wid m 3 d j = wd (w d) j).
  { intros j Hj. unfold wid. rewrite (proj2 (H3 j Hj)). cbn [ok_or]. rewrite vtx_S by lia. lra. }
  assert (Hv : (-1 <= s <= vn per w f d)%Z) by (unfold vn, own_n; destruct (f =? d)%Z; [destruct (per f d)|]; lia).
  destruct (Hc s Hv) as [_ Ec]. unfold wid at 1. rewrite Ec. cbn [ok_or]. unfold vw. unfold periodic_dir. rewrite Epr, <- (Hper f d Hf Hd).
  destruct (Z.eqb_spec f d) as [E|E].
  - unfold own_w. cbv zeta. destruct (per f d).
    + destruct (Z.eqb_spec s (-1)); [lia|]. cbn [orb]. destruct (Z.eqb_spec s (lenZ (w d) - 1)) as [->|]; [rewrite !W by lia; reflexivity|].
      destruct (Z.eqb_spec s (lenZ (w d))); [lia|]. rewrite !W by lia. lra.
    + destruct (Z.eqb_spec s (-1)); [lia|]. destruct (Z.eqb_spec s (lenZ (w d) - 1)) as [->|]; rewrite !W by lia; lra.
  - unfold oth_w. cbv zeta. destruct (Z.eqb_spec s (-1)); [lia|]. destruct (Z.eqb_spec s (lenZ (w d))); [lia|]. now rewrite W.
Qed.

(** * Around a coordinate x in cell k whose neighbours have width hh *)
Section Around.
Context (name : string) (K : kernel) (w : Z) (HK : getKernel name = Ok (K, w)) (d k : Z) (x hh : R)
  (Hd : (0 <= d < m_dim m)%Z) (Hc : cell_of m d k x) (Hh : 0 < hh)
  (HU : forall j, (0 <= j < m_n m 3 d)%Z -> near_cell m d w k j -> wid m 3 d j = hh).

Lemma w_radius : (2 <= w)%Z /\ radius name <= IZR w /\ 0 <= radius name * hh <= IZR w * hh.
Proof.
  clear - HK Hh. assert (A : (2 <= w)%Z /\ 0 <= radius name <= IZR w) by (destruct (getKernel_cases _ _ _ HK) as [(_ & _ & -> & ->)|(_ & _ & -> & ->)]; split; lia || lra).
  split; [apply A|]. split; [apply A|]. split; [apply Rmult_le_pos; lra|apply Rmult_le_compat_r; lra].
Qed.

Lemma near_up j : (k <= j)%Z -> (j <= k + w + 1)%Z -> (j <= m_n m 3 d)%Z -> crd m 4 d j = crd m 4 d k + IZR (j - k) * hh.
Proof.
  destruct Hc as (Rk & _). intros Hj. pattern j. apply (zrange_ind_up _ k); [| |exact Hj].
  - intros _ _. rewrite Z.sub_diag. lra.
  - intros b Hb IH H1 H2. rewrite (proj1 (vert_step d b Hd ltac:(lia))), IH by lia. rewrite HU by (try lia; left; lia).
    replace (b + 1 - k)%Z with (b - k + 1)%Z by lia. rewrite plus_IZR. lra.
Qed.
Lemma near_down j : (0 <= j)%Z -> (k - w <= j <= k)%Z -> crd m 4 d j = crd m 4 d k + IZR (j - k) * hh.
Proof.
  destruct Hc as (Rk & _). intros Hj Hr.
  assert (G : forall i, (j <= i)%Z -> (i <= k)%Z -> crd m 4 d i = crd m 4 d j + IZR (i - j) * hh).
  { intros i Hi. pattern i. apply (zrange_ind_up _ j); [| |exact Hi].
    - intros _. rewrite Z.sub_diag. lra.
    - intros b Hb IH H1. rewrite (proj1 (vert_step d b Hd ltac:(lia))), IH by lia. rewrite HU by (try lia; left; lia).
      replace (b + 1 - j)%Z with (b - j + 1)%Z by lia. rewrite plus_IZR. lra. }
  rewrite (G k) by lia. replace (k - j)%Z with (- (j - k))%Z by lia. rewrite opp_IZR. lra.
Qed.
Lemma near_vert j : (0 <= j <= m_n m 3 d)%Z -> (k - w <= j <= k + w + 1)%Z -> crd m 4 d j = crd m 4 d k + IZR (j - k) * hh.
Proof. intros H1 H2. destruct (Z_le_gt_dec k j); [apply near_up; lia|apply near_down; lia]. Qed.

(** The position point s would have on a uniform mesh. *)
Definition vpos (f s : Z) : R := crd m 4 d k + (upos f d s - IZR k) * hh.

Lemma in_window f s : (0 <= f < m_dim m)%Z -> (0 <= s < m_n m f d)%Z -> (k - w <= s <= k + w)%Z -> crd m f d s = vpos f s.
Proof.
  intros Hf Hr Hw. pose proof (n_own_oth m D Hs f d Hf Hd) as N. rewrite (vel_crd f d s) by auto. unfold vpos, upos.
  pose proof (near_vert s ltac:(lia) ltac:(lia)) as V0. pose proof (near_vert (s + 1) ltac:(lia) ltac:(lia)) as V1. rewrite minus_IZR in V0, V1. rewrite plus_IZR in V1.
  destruct (f =? d)%Z; lra.
Qed.
Lemma out_window f s : (0 <= f < m_dim m)%Z -> (0 <= s < m_n m f d)%Z -> ~ (k - w <= s <= k + w)%Z -> IZR w * hh <= Rabs (x - crd m f d s).
Proof.
  intros Hf Hr Hw. pose proof (n_own_oth m D Hs f d Hf Hd) as N. destruct Hc as (Rk & Hx). pose proof w_radius as (W2 & _ & Wr).
  assert (Lo : crd m 4 d s <= crd m f d s <= crd m 4 d (s + 1)).
  { rewrite (vel_crd f d s) by auto. pose proof (vert_le d s (s + 1) Hd ltac:(lia) ltac:(lia)). destruct (f =? d)%Z; lra. }
  rewrite (near_vert (k + 1)) in Hx by lia. replace (k + 1 - k)%Z with 1%Z in Hx by lia.
  destruct (Z_lt_ge_dec s k) as [L|L].
  - pose proof (vert_le d (s + 1) (k - w) Hd ltac:(lia) ltac:(lia)) as M. rewrite (near_vert (k - w)) in M by lia.
    replace (k - w - k)%Z with (- w)%Z in M by lia. rewrite opp_IZR in M. rewrite Rabs_right; lra.
  - pose proof (vert_le d (k + w + 1) s Hd ltac:(lia) ltac:(lia)) as M. rewrite (near_vert (k + w + 1)) in M by lia.
    replace (k + w + 1 - k)%Z with (w + 1)%Z in M by lia. rewrite plus_IZR in M. rewrite Rabs_left1; lra.
Qed.
Lemma out_vpos f s : ~ (k - w <= s <= k + w)%Z -> IZR w * hh <= Rabs (x - vpos f s).
Proof.
  intros Hw. destruct Hc as (Rk & Hx). pose proof w_radius as (W2 & _ & Wr). rewrite (near_vert (k + 1)) in Hx by lia. replace (k + 1 - k)%Z with 1%Z in Hx by lia.
  unfold vpos, upos. destruct (Z_lt_ge_dec s k) as [L|L].
  - assert (IZR s + 1 - IZR k <= - IZR w) by (apply (IZR_le (s + 1)) || (assert (Q : (s + 1 - k <= - w)%Z) by lia; apply IZR_le in Q; rewrite minus_IZR, plus_IZR, opp_IZR in Q; lra)).
    assert ((IZR s + (if (f =? d)%Z then 1 else 1/2) - IZR k) * hh <= (- IZR w) * hh) by (apply Rmult_le_compat_r; [lra|destruct (f =? d)%Z; lra]).
    rewrite Rabs_right; lra.
  - assert (Q : (w + 1 <= s - k)%Z) by lia. apply IZR_le in Q. rewrite minus_IZR, plus_IZR in Q.
    assert ((IZR w + 1) * hh <= (IZR s + (if (f =? d)%Z then 1 else 1/2) - IZR k) * hh) by (apply Rmult_le_compat_r; [lra|destruct (f =? d)%Z; lra]).
    rewrite Rabs_left1; lra.
Qed.

Lemma window_covers f s : (0 <= f < m_dim m)%Z -> (0 <= s < m_n m f d)%Z -> Rabs (x - crd m f d s) < radius name * hh -> (k - w <= s <= k + w)%Z.
Proof.
  intros Hf Hr Hx. pose proof w_radius as (_ & _ & W). destruct (Z_le_gt_dec (k - w) s), (Z_le_gt_dec s (k + w)); try lia;
    pose proof (out_window f s Hf Hr ltac:(lia)); lra.
Qed.

Lemma kval_vpos f s : (0 <= f < m_dim m)%Z -> (0 <= s < m_n m f d)%Z ->
  kval K (x - crd m f d s) hh = kval K (x - vpos f s) hh /\
  (x - crd m f d s) * kval K (x - crd m f d s) hh = (x - vpos f s) * kval K (x - vpos f s) hh.
Proof.
  intros Hf Hr. destruct (Z_le_gt_dec (k - w) s) as [A|A], (Z_le_gt_dec s (k + w)) as [B|B]; try (rewrite in_window by lia; auto; fail);
    pose proof w_radius as (_ & _ & W); pose proof (out_window f s Hf Hr ltac:(lia)) as O1; pose proof (out_vpos f s ltac:(lia)) as O2;
    rewrite (kernel_out name K w (x - crd m f d s) hh HK Hh ltac:(lra)), (kernel_out name K w (x - vpos f s) hh HK Hh ltac:(lra)); split; ring.
Qed.

Lemma near_wid f s : (0 <= f < m_dim m)%Z -> (0 <= s < m_n m f d)%Z -> kval K (x - crd m f d s) hh <> 0 -> wid m f d s = hh.
Proof.
  intros Hf Hr Hk. pose proof w_radius as (W2 & _ & W). pose proof (n_own_oth m D Hs f d Hf Hd) as N.
  assert (Wn : (k - w <= s <= k + w)%Z).
  { destruct (Z_le_gt_dec (k - w) s), (Z_le_gt_dec s (k + w)); try lia; exfalso; apply Hk; apply (kernel_out name K w); auto;
      pose proof (out_window f s Hf Hr ltac:(lia)); lra. }
  rewrite (vel_wid f d s) by (auto; lia). destruct (Z.eqb_spec f d) as [E|E]; [|apply HU; [lia|left; lia]].
  assert (Ws : (s <> k + w)%Z).
  { intros ->. apply Hk. apply (kernel_out name K w); auto. rewrite in_window by auto. unfold vpos, upos. rewrite E, Z.eqb_refl. rewrite plus_IZR.
    destruct Hc as (Rk & Hx). rewrite (near_vert (k + 1)) in Hx by lia. replace (k + 1 - k)%Z with 1%Z in Hx by lia. rewrite Rabs_left1; lra. }
  destruct (Z.eqb_spec s (m_n m 3 d - 1)) as [E2|E2].
  - destruct (periodic_dir m d) eqn:Pd; [|apply HU; [lia|left; lia]].
    rewrite (HU s ltac:(lia) ltac:(left; lia)). rewrite (HU 0%Z ltac:(lia)); [lra|]. right. split; [exact Pd|]. left. lia.
  - rewrite (HU s ltac:(lia) ltac:(left; lia)), (HU (s + 1)%Z ltac:(lia) ltac:(left; lia)). lra.
Qed.

Lemma near_own_wid f : (0 <= f < m_dim m)%Z -> wid m f d k = hh.
Proof.
  intros Hf. destruct Hc as (Rk & _). pose proof w_radius as (W2 & _ & Wr). rewrite (vel_wid f d k) by auto.
  rewrite (HU k Rk ltac:(left; lia)). destruct (f =? d)%Z; [|reflexivity].
  destruct (Z.eqb_spec k (m_n m 3 d - 1)) as [E2|E2].
  - destruct (periodic_dir m d) eqn:Pd; [|reflexivity]. rewrite (HU 0%Z ltac:(lia)); [lra|]. right. split; [exact Pd|]. left. lia.
  - rewrite (HU (k + 1)%Z ltac:(lia) ltac:(left; lia)). lra.
Qed.

Lemma domain_far : (2 * w + 1 <= m_n m 3 d)%Z -> radius name * hh <= m_max m d - m_min m d.
Proof.
  intros Hn. destruct Hc as (Rk & _). pose proof w_radius as (W2 & _ & W). destruct (vert_ends d Hd) as [<- <-].
  destruct (Z_le_gt_dec w k).
  - pose proof (vert_le d 0 (k - w) Hd ltac:(lia) ltac:(lia)). pose proof (vert_le d k (m_n m 3 d) Hd ltac:(lia) ltac:(lia)).
    pose proof (near_vert (k - w) ltac:(lia) ltac:(lia)) as E. replace (k - w - k)%Z with (- w)%Z in E by lia. rewrite opp_IZR in E. lra.
  - pose proof (vert_le d 0 k Hd ltac:(lia) ltac:(lia)). pose proof (vert_le d (k + w + 1) (m_n m 3 d) Hd ltac:(lia) ltac:(lia)).
    pose proof (near_vert (k + w + 1) ltac:(lia) ltac:(lia)) as E. replace (k + w + 1 - k)%Z with (w + 1)%Z in E by lia. rewrite plus_IZR in E. lra.
Qed.

(** The positions vpos of the indices outside the component are out of reach
    of x, if x is a radius away from the boundary. *)
Lemma vpos_covers f s : (0 <= f < m_dim m)%Z -> m_min m d + radius name * hh <= x <= m_max m d - radius name * hh -> ~ (0 <= s < m_n m f d)%Z ->
  radius name * hh <= Rabs (x - vpos f s).
Proof.
  intros Hf Hx Hr. pose proof w_radius as (W2 & _ & W). pose proof (n_own_oth m D Hs f d Hf Hd) as N. destruct Hc as (Rk & Hk).
  destruct (Z_le_gt_dec (k - w) s) as [A|A]; [|pose proof (out_vpos f s ltac:(lia)); lra].
  destruct (Z_le_gt_dec s (k + w)) as [B|B]; [|pose proof (out_vpos f s ltac:(lia)); lra].
  destruct (vert_ends d Hd) as [Emin Emax]. pose proof (mf_dim _ _ F) as Hdim.
  destruct (Z_lt_ge_dec s 0) as [L|L].
  - pose proof (near_vert 0 ltac:(lia) ltac:(lia)) as E0. rewrite Emin in E0. rewrite minus_IZR in E0.
    assert ((upos f d s) * hh <= 0 * hh) by (apply Rmult_le_compat_r; [lra|]; assert (Q : (s + 1 <= 0)%Z) by lia; apply IZR_le in Q; rewrite plus_IZR in Q; unfold upos; destruct (f =? d)%Z; lra).
    unfold vpos. rewrite Rabs_right; lra.
  - pose proof (near_vert (m_n m 3 d) ltac:(lia) ltac:(lia)) as E0. rewrite Emax in E0. rewrite minus_IZR in E0.
    assert (IZR (m_n m 3 d) * hh <= upos f d s * hh).
    { apply Rmult_le_compat_r; [lra|]. unfold upos. destruct (Z.eqb_spec f d) as [E|E].
      - assert (Q : (m_n m 3 d <= s + 1)%Z) by lia. apply IZR_le in Q. rewrite plus_IZR in Q. lra.
      - assert (Q : (m_n m 3 d <= s)%Z) by (rewrite (mf_n_oth _ _ F f d Hf ltac:(lia) E) in Hr; lia). apply IZR_le in Q. lra. }
    unfold vpos. rewrite Rabs_left1; lra.
Qed.
End Around.
End Cells.

Lemma uni_vert m D h d k : mesh_setup m D -> uniform m h -> (0 <= d < m_dim m)%Z -> (0 <= k <= m_n m 3 d)%Z -> crd m 4 d k = m_min m d + IZR k * h d.
Proof.
  intros Hs Hu Hd Hk. assert (K0 : (0 <= k)%Z) by lia. revert Hk. pattern k. apply (zrange_ind_up _ 0); [| |exact K0].
  - intros _. rewrite (proj1 (vert_ends m D Hs d Hd)). lra.
  - intros j Hj IH Hk. rewrite (proj1 (vert_step m D Hs d j Hd ltac:(lia))), IH by lia. rewrite (proj2 (Hu d Hd)) by lia. rewrite plus_IZR. lra.
Qed.
Lemma uni_cell m D h d k x : mesh_setup m D -> uniform m h -> (0 <= d < m_dim m)%Z -> cell_of m d k x ->
  m_min m d + IZR k * h d <= x < m_min m d + IZR (k + 1) * h d.
Proof. intros Hs Hu Hd (Hk & Hx). rewrite !(uni_vert m D h) in Hx by (auto; lia). exact Hx. Qed.

Lemma uniform_is_around m D h w bodies : mesh_setup m D -> uniform m h -> uniform_around m h w bodies.
Proof.
  intros Hs Hu. split; [intros d Hd; exact (uni_pos m D h Hs Hu d Hd)|]. intros b i X d k j _ Hd _ Hj _. now apply Hu.
Qed.

(** * Loops that append *)
Lemma foldM_collect {A T} (f : list T -> A -> res (list T)) (P : A -> list T -> Prop) l :
  (forall a log log', In a l -> f log a = Ok log' -> exists es, log' = log ++ es /\ P a es) ->
  forall log log', foldM f l log = Ok log' ->
  exists es, log' = log ++ es /\ (forall e, In e es -> exists a s, In a l /\ P a s /\ In e s) /\
    (forall a, In a l -> exists s, P a s /\ incl s es).
Proof.
  induction l as [|a t IH]; intros H log log' E.
  - cbn in E. injection E as <-. exists []. rewrite app_nil_r. split; [reflexivity|]. split; [intros e []|intros a []].
  - cbn [foldM] in E. apply bind_ok_inv in E. destruct E as (l1 & E1 & E).
    destruct (H a _ _ (or_introl eq_refl) E1) as (s & -> & Ps).
    destruct (IH (fun a' lg lg' Ha => H a' lg lg' (or_intror Ha)) _ _ E) as (es & -> & I1 & I2).
    exists (s ++ es). split; [now rewrite app_assoc|]. split.
    + intros e He. apply in_app_or in He as [He|He]; [exists a, s; cbn; auto|].
      destruct (I1 e He) as (a' & s' & Ha & Hp & Hi). exists a', s'. cbn. auto.
    + intros a' [<-|Ha]; [exists s; split; [auto|apply incl_appl, incl_refl]|].
      destruct (I2 a' Ha) as (s' & Hp & Hi). exists s'. split; [auto|now apply incl_appr].
Qed.

Lemma foldM_ex {A S} (f : S -> A -> res S) l : (forall a s, In a l -> exists s', f s a = Ok s') -> forall s, exists s', foldM f l s = Ok s'.
Proof.
  induction l as [|a t IH]; intros H s; [eexists; reflexivity|]. cbn [foldM].
  destruct (H a s (or_introl eq_refl)) as (s1 & ->). cbn [bind]. apply IH. intros; apply H; now right.
Qed.

Lemma coord_range m D f d s c : mesh_setup m D -> (0 <= f < m_dim m)%Z -> (0 <= d < m_dim m)%Z ->
  m_coord m f d s = Ok c -> (-1 <= s <= m_n m f d)%Z /\ c = crd m f d s.
Proof.
  intros Hs Hf Hd E. split; [|unfold crd; rewrite E; reflexivity].
  destruct Hs as (mn & mx & per & w & np & Hg & Hm & _).
  destruct (mesh_velocity _ _ _ _ _ _ Hg Hm f d Hf Hd) as (En & _ & Hc). rewrite En.
  destruct (Z_le_gt_dec (-1) s), (Z_le_gt_dec s (vn per w f d)); try lia;
    rewrite (proj1 (Hc s ltac:(lia))) in E; discriminate.
Qed.

Lemma neighbours_In m D f d i0 per w l : mesh_setup m D -> (0 <= f < m_dim m)%Z -> (0 <= d < m_dim m)%Z ->
  neighbours m f d i0 per w = Ok l ->
  (forall i x, In (i, x) l ->
     ((0 <= i < m_n m f d)%Z /\ (i0 - w <= i <= i0 + w)%Z /\ x = crd m f d i) \/
     (per = true /\ i = (m_n m f d - 1)%Z /\ (i0 - w <= -1 <= i0 + w)%Z /\ x = crd m f d (-1) - (m_max m d - m_min m d)) \/
     (per = true /\ i = 0%Z /\ (i0 - w <= m_n m f d <= i0 + w)%Z /\ x = crd m f d (m_n m f d) + (m_max m d - m_min m d))) /\
  (forall s, (i0 - w <= s <= i0 + w)%Z -> (0 <= s < m_n m f d)%Z -> In (s, crd m f d s) l).
Proof.
  intros Hs Hf Hd E.
  apply foldM_collect with (P := fun s es =>
     ((0 <= s < m_n m f d)%Z /\ es = [(s, crd m f d s)]) \/ (~ (0 <= s < m_n m f d)%Z /\ per = false /\ es = []) \/
     (per = true /\ s = (-1)%Z /\ es = [((m_n m f d - 1)%Z, crd m f d (-1) - (m_max m d - m_min m d))]) \/
     (per = true /\ s = m_n m f d /\ es = [(0%Z, crd m f d (m_n m f d) + (m_max m d - m_min m d))])) in E.
  - destruct E as (es & -> & I1 & I2). cbn [app]. split.
    + intros i x Hx. destruct (I1 _ Hx) as (s & es' & Hsr & P & Hin). apply zrange_In in Hsr.
      destruct P as [(R0 & ->)|[(_ & _ & ->)|[(Pt & -> & ->)|(Pt & -> & ->)]]]; cbn in Hin;
        [destruct Hin as [Hin|[]]|destruct Hin|destruct Hin as [Hin|[]]|destruct Hin as [Hin|[]]]; injection Hin as <- <-.
      * left. split; [auto|]. split; [lia|auto].
      * right. left. split; [auto|]. split; [auto|]. split; [lia|auto].
      * right. right. split; [auto|]. split; [auto|]. split; [lia|auto].
    + intros s Hsr R0. destruct (I2 s ltac:(apply zrange_In; lia)) as (es' & P & Hi). apply Hi.
      pose proof (mf_np _ _ (setup_facts _ _ Hs) f d (or_introl Hf) ltac:(destruct (mf_dim _ _ (setup_facts _ _ Hs)); lia)).
      destruct P as [(_ & ->)|[(N & _)|[(_ & -> & _)|(_ & -> & _)]]]; [now left|contradiction|lia|lia].
  - intros s log log' Hsr. cbv beta. apply zrange_In in Hsr.
    destruct ((0 <=? s)%Z && (s <? m_n m f d)%Z) eqn:B.
    + intros E'. apply bind_ok_inv in E'. destruct E' as (c & Ec & E'). injection E' as <-.
      destruct (coord_range m D f d s c Hs Hf Hd Ec) as [_ ->]. exists [(s, crd m f d s)]. split; [reflexivity|]. left. split; [lia|reflexivity].
    + destruct per.
      2: { intros E'. injection E' as <-. exists []. rewrite app_nil_r. split; [reflexivity|]. right. left. split; [lia|auto]. }
      cbv zeta. destruct (Z.ltb_spec s 0); intros E'; apply bind_ok_inv in E'; destruct E' as (c & Ec & E'); injection E' as <-;
        destruct (coord_range m D f d s c Hs Hf Hd Ec) as [Hc ->].
      * assert (s = -1)%Z by lia. subst s. eexists. split; [reflexivity|]. right. right. left.
        split; [reflexivity|]. split; [reflexivity|]. replace (-1 + m_n m f d)%Z with (m_n m f d - 1)%Z by lia. reflexivity.
      * assert (s = m_n m f d) by lia. subst s. eexists. split; [reflexivity|]. right. right. right.
        split; [reflexivity|]. split; [reflexivity|]. replace (m_n m f d - m_n m f d)%Z with 0%Z by lia. reflexivity.
Qed.

(** * One row *)
Definition kprod (dim : Z) (K : kernel) (h : Z -> R) (X xs : list R) : R :=
  if (dim =? 3)%Z then kval K (xc X 0 - xc xs 0) (h 0%Z) * kval K (xc X 1 - xc xs 1) (h 1%Z) * kval K (xc X 2 - xc xs 2) (h 2%Z)
  else kval K (xc X 0 - xc xs 0) (h 0%Z) * kval K (xc X 1 - xc xs 1) (h 1%Z).

Lemma list_by_len2 {A} (l : list A) : lenZ l = 2%Z -> exists a b, l = [a; b].
Proof. destruct l as [|a [|b [|c t]]]; unfold lenZ; cbn; intros; try lia. eauto. Qed.
Lemma list_by_len3 {A} (l : list A) : lenZ l = 3%Z -> exists a b c, l = [a; b; c].
Proof. destruct l as [|a [|b [|c [|e t]]]]; unfold lenZ; cbn; intros; try lia. eauto. Qed.

Lemma delta_prod dim name K w h X xs ws : getKernel name = Ok (K, w) -> (dim = 2 \/ dim = 3)%Z ->
  lenZ X = dim -> lenZ xs = dim -> lenZ ws = dim ->
  (forall d, (0 <= d < dim)%Z -> 0 < h d /\ nthZ ws d = Some (h d)) ->
  delta X xs ws K = Ok (kprod dim K h X xs).
Proof.
  intros HK Hdim HX Hxs Hws Hw. unfold delta. rewrite Hws. destruct Hdim as [-> | ->].
  - destruct (list_by_len2 _ HX) as (X0 & X1 & ->). destruct (list_by_len2 _ Hxs) as (x0 & x1 & ->).
    destruct (list_by_len2 _ Hws) as (w0 & w1 & ->).
    destruct (Hw 0%Z ltac:(lia)) as [P0 E0]. destruct (Hw 1%Z ltac:(lia)) as [P1 E1].
    change (Some w0 = Some (h 0%Z)) in E0. change (Some w1 = Some (h 1%Z)) in E1. injection E0 as ->. injection E1 as ->.
    change (zrange 0 2) with [0; 1]%Z. cbn [foldM].
    change (rd [X0; X1] 0) with (Ok X0). change (rd [X0; X1] 1) with (Ok X1).
    change (rd [x0; x1] 0) with (Ok x0). change (rd [x0; x1] 1) with (Ok x1).
    change (rd [h 0%Z; h 1%Z] 0) with (Ok (h 0%Z)). change (rd [h 0%Z; h 1%Z] 1) with (Ok (h 1%Z)). cbn [bind].
    rewrite (proj1 (kernel_defined _ _ _ (X0 - x0) _ HK P0)). cbn [bind].
    rewrite (proj1 (kernel_defined _ _ _ (X1 - x1) _ HK P1)). cbn [bind]. unfold kprod.
    change (2 =? 3)%Z with false. cbv iota. change (xc [X0; X1] 0) with X0. change (xc [X0; X1] 1) with X1.
    change (xc [x0; x1] 0) with x0. change (xc [x0; x1] 1) with x1. f_equal. ring.
  - destruct (list_by_len3 _ HX) as (X0 & X1 & X2 & ->). destruct (list_by_len3 _ Hxs) as (x0 & x1 & x2 & ->).
    destruct (list_by_len3 _ Hws) as (w0 & w1 & w2 & ->).
    destruct (Hw 0%Z ltac:(lia)) as [P0 E0]. destruct (Hw 1%Z ltac:(lia)) as [P1 E1]. destruct (Hw 2%Z ltac:(lia)) as [P2 E2].
    change (Some w0 = Some (h 0%Z)) in E0. change (Some w1 = Some (h 1%Z)) in E1. change (Some w2 = Some (h 2%Z)) in E2.
    injection E0 as ->. injection E1 as ->. injection E2 as ->.
    change (zrange 0 3) with [0; 1; 2]%Z. cbn [foldM].
    change (rd [X0; X1; X2] 0) with (Ok X0). change (rd [X0; X1; X2] 1) with (Ok X1). change (rd [X0; X1; X2] 2) with (Ok X2).
    change (rd [x0; x1; x2] 0) with (Ok x0). change (rd [x0; x1; x2] 1) with (Ok x1). change (rd [x0; x1; x2] 2) with (Ok x2).
    change (rd [h 0%Z; h 1%Z; h 2%Z] 0) with (Ok (h 0%Z)). change (rd [h 0%Z; h 1%Z; h 2%Z] 1) with (Ok (h 1%Z)).
    change (rd [h 0%Z; h 1%Z; h 2%Z] 2) with (Ok (h 2%Z)). cbn [bind].
    rewrite (proj1 (kernel_defined _ _ _ (X0 - x0) _ HK P0)). cbn [bind].
    rewrite (proj1 (kernel_defined _ _ _ (X1 - x1) _ HK P1)). cbn [bind].
    rewrite (proj1 (kernel_defined _ _ _ (X2 - x2) _ HK P2)). cbn [bind]. unfold kprod.
    change (3 =? 3)%Z with true. cbv iota. change (xc [X0; X1; X2] 0) with X0. change (xc [X0; X1; X2] 1) with X1. change (xc [X0; X1; X2] 2) with X2.
    change (xc [x0; x1; x2] 0) with x0. change (xc [x0; x1; x2] 1) with x1. change (xc [x0; x1; x2] 2) with x2. f_equal. ring.
Qed.

(** The point p of component f and the coordinates xs come from the neighbour
    lists. *)
Definition from_lists (dim : Z) (nb : list (list (Z * R))) (p : pt) (xs : list R) : Prop :=
  lenZ xs = dim /\ (dim = 2%Z -> pc p 2 = 0%Z) /\
  forall d, (0 <= d < dim)%Z -> exists l, nthZ nb d = Some l /\ In (pc p d, xc xs d) l.

Lemma delta_row_In m D K w per ws IJK X c row evs :
  delta_row m D K w per ws IJK X c row = Ok evs ->
  exists nb, getEulerianNeighbors m c IJK per w = Ok nb /\
    (forall e, In e evs -> exists p xs col v, from_lists (m_dim m) nb p xs /\ gidx m D c (st_of p) = Ok col /\
       delta X xs ws K = Ok v /\ e = mkEv row col v INSERT_VALUES) /\
    (forall p xs, from_lists (m_dim m) nb p xs -> exists col v, gidx m D c (st_of p) = Ok col /\ delta X xs ws K = Ok v /\
       In (mkEv row col v INSERT_VALUES) evs).
Proof.
  unfold delta_row. intros E. apply bind_ok_inv in E. destruct E as (nb & En & E). exists nb. split; [exact En|].
  destruct (Z.eqb_spec (m_dim m) 3) as [D3|D3].
  - apply bind_ok_inv in E. destruct E as (n0 & E0 & E). apply bind_ok_inv in E. destruct E as (n1 & E1 & E).
    apply bind_ok_inv in E. destruct E as (n2 & E2 & E). apply rd_Ok in E0, E1, E2.
    apply foldM_collect with (P := fun kz es2 =>
      (forall e, In e es2 -> exists jy ix col v, In jy n1 /\ In ix n0 /\ gidx m D c (mkSt (fst kz) (fst jy) (fst ix) 0) = Ok col /\
         delta X [snd ix; snd jy; snd kz] ws K = Ok v /\ e = mkEv row col v INSERT_VALUES) /\
      (forall jy ix, In jy n1 -> In ix n0 -> exists col v, gidx m D c (mkSt (fst kz) (fst jy) (fst ix) 0) = Ok col /\
         delta X [snd ix; snd jy; snd kz] ws K = Ok v /\ In (mkEv row col v INSERT_VALUES) es2)) in E.
    + destruct E as (es & -> & I1 & I2). cbn [app]. split.
      * intros e He. destruct (I1 e He) as (kz & s & Hk & (P1 & _) & Hin). destruct (P1 e Hin) as (jy & ix & col & v & Hj & Hi & Ec & Ev & Ee).
        exists (fst ix, fst jy, fst kz), [snd ix; snd jy; snd kz], col, v. split; [|auto].
        split; [rewrite D3; reflexivity|]. split; [lia|]. rewrite D3. intros d Hd.
        assert (d = 0 \/ d = 1 \/ d = 2)%Z as [->|[->| ->]] by lia; cbn; [exists n0|exists n1|exists n2];
          (split; [assumption|]); rewrite <- surjective_pairing; assumption.
      * intros p xs (Lx & _ & Hd). rewrite D3 in Lx, Hd. destruct (list_by_len3 _ Lx) as (x0 & x1 & x2 & ->). destruct p as [[i j] k].
        destruct (Hd 0%Z ltac:(lia)) as (l0 & L0 & H0). destruct (Hd 1%Z ltac:(lia)) as (l1 & L1 & H1). destruct (Hd 2%Z ltac:(lia)) as (l2 & L2 & H2).
        rewrite E0 in L0. rewrite E1 in L1. rewrite E2 in L2. injection L0 as <-. injection L1 as <-. injection L2 as <-. cbn in H0, H1, H2.
        destruct (I2 (k, x2) H2) as (s & (_ & P2) & Hi). destruct (P2 (j, x1) (i, x0) H1 H0) as (col & v & Ec & Ev & Hin).
        exists col, v. cbn in *. auto.
    + clear E. intros kz log log' Hk E.
      apply foldM_collect with (P := fun jy es1 =>
        (forall e, In e es1 -> exists ix col v, In ix n0 /\ gidx m D c (mkSt (fst kz) (fst jy) (fst ix) 0) = Ok col /\
           delta X [snd ix; snd jy; snd kz] ws K = Ok v /\ e = mkEv row col v INSERT_VALUES) /\
        (forall ix, In ix n0 -> exists col v, gidx m D c (mkSt (fst kz) (fst jy) (fst ix) 0) = Ok col /\
           delta X [snd ix; snd jy; snd kz] ws K = Ok v /\ In (mkEv row col v INSERT_VALUES) es1)) in E.
      * destruct E as (es & -> & I1 & I2). exists es. split; [reflexivity|]. split.
        { intros e He. destruct (I1 e He) as (jy & s & Hj & (P1 & _) & Hin). destruct (P1 e Hin) as (ix & col & v & Hi & Q). exists jy, ix, col, v. auto. }
        { intros jy ix Hj Hi. destruct (I2 jy Hj) as (s & (_ & P2) & Hin). destruct (P2 ix Hi) as (col & v & Ec & Ev & Hx). exists col, v. auto. }
      * clear E. intros jy lg lg' Hj E.
        apply foldM_collect with (P := fun ix es0 => exists col v, gidx m D c (mkSt (fst kz) (fst jy) (fst ix) 0) = Ok col /\
           delta X [snd ix; snd jy; snd kz] ws K = Ok v /\ es0 = [mkEv row col v INSERT_VALUES]) in E.
        { destruct E as (es & -> & I1 & I2). exists es. split; [reflexivity|]. split.
          - intros e He. destruct (I1 e He) as (ix & s & Hi & (col & v & Ec & Ev & ->) & Hin). exists ix, col, v. destruct Hin as [<-|[]]. auto.
          - intros ix Hi. destruct (I2 ix Hi) as (s & (col & v & Ec & Ev & ->) & Hin). exists col, v. split; [auto|]. split; [auto|]. apply Hin. now left. }
        { clear E. intros ix l0 l0' Hi E. cbv beta in E. apply bind_ok_inv in E. destruct E as (col & Ec & E).
          apply bind_ok_inv in E. destruct E as (v & Ev & E). injection E as <-. eexists. split; [reflexivity|]. eauto. }
  - destruct (Z.eqb_spec (m_dim m) 2) as [D2|D2]; [|discriminate].
    apply bind_ok_inv in E. destruct E as (n0 & E0 & E). apply bind_ok_inv in E. destruct E as (n1 & E1 & E).
    apply rd_Ok in E0, E1.
    apply foldM_collect with (P := fun jy es1 =>
      (forall e, In e es1 -> exists ix col v, In ix n0 /\ gidx m D c (mkSt 0 (fst jy) (fst ix) 0) = Ok col /\
         delta X [snd ix; snd jy] ws K = Ok v /\ e = mkEv row col v INSERT_VALUES) /\
      (forall ix, In ix n0 -> exists col v, gidx m D c (mkSt 0 (fst jy) (fst ix) 0) = Ok col /\
         delta X [snd ix; snd jy] ws K = Ok v /\ In (mkEv row col v INSERT_VALUES) es1)) in E.
    + destruct E as (es & -> & I1 & I2). cbn [app]. split.
      * intros e He. destruct (I1 e He) as (jy & s & Hj & (P1 & _) & Hin). destruct (P1 e Hin) as (ix & col & v & Hi & Ec & Ev & Ee).
        exists (fst ix, fst jy, 0%Z), [snd ix; snd jy], col, v. split; [|auto].
        split; [rewrite D2; reflexivity|]. split; [reflexivity|]. rewrite D2. intros d Hd.
        assert (d = 0 \/ d = 1)%Z as [->| ->] by lia; cbn; [exists n0|exists n1];
          (split; [assumption|]); rewrite <- surjective_pairing; assumption.
      * intros p xs (Lx & Hp2 & Hd). rewrite D2 in Lx, Hd. destruct (list_by_len2 _ Lx) as (x0 & x1 & ->). destruct p as [[i j] k].
        specialize (Hp2 D2). cbn in Hp2. subst k.
        destruct (Hd 0%Z ltac:(lia)) as (l0 & L0 & H0). destruct (Hd 1%Z ltac:(lia)) as (l1 & L1 & H1).
        rewrite E0 in L0. rewrite E1 in L1. injection L0 as <-. injection L1 as <-. cbn in H0, H1.
        destruct (I2 (j, x1) H1) as (s & (_ & P2) & Hi). destruct (P2 (i, x0) H0) as (col & v & Ec & Ev & Hin).
        exists col, v. cbn in *. auto.
    + clear E. intros jy lg lg' Hj E.
      apply foldM_collect with (P := fun ix es0 => exists col v, gidx m D c (mkSt 0 (fst jy) (fst ix) 0) = Ok col /\
         delta X [snd ix; snd jy] ws K = Ok v /\ es0 = [mkEv row col v INSERT_VALUES]) in E.
      { destruct E as (es & -> & I1 & I2). exists es. split; [reflexivity|]. split.
        - intros e He. destruct (I1 e He) as (ix & s & Hi & (col & v & Ec & Ev & ->) & Hin). exists ix, col, v. destruct Hin as [<-|[]]. auto.
        - intros ix Hi. destruct (I2 ix Hi) as (s & (col & v & Ec & Ev & ->) & Hin). exists col, v. split; [auto|]. split; [auto|]. apply Hin. now left. }
      { clear E. intros ix l0 l0' Hi E. cbv beta in E. apply bind_ok_inv in E. destruct E as (col & Ec & E).
        apply bind_ok_inv in E. destruct E as (v & Ev & E). injection E as <-. eexists. split; [reflexivity|]. eauto. }
Qed.
