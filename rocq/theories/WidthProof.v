(** Distances between velocity points and widths around them, from the widths of the cells. *)
From Coq Require Import ZArith Reals Lra Lia.
From Coq Require Import ZifyBool.
From Verif Require Import Prelude ZSum RSum TypesModel GridModel GridSpec GridProof MeshProof IndexModel IndexSpec BoundaryModel BoundarySpec BoundaryProof.
Local Open Scope R_scope.

(** Width of the cell i in direction d, one layer out of the domain: across a
    periodic boundary the width of the image, else of the nearest cell. *)
Definition cw (m : mesh) (d i : Z) : R :=
  let n := m_n m 3 d in
  if (i <? 0)%Z then (if periodic_dir m d then wid m 3 d (n - 1) else wid m 3 d 0)
  else if (i <? n)%Z then wid m 3 d i else (if periodic_dir m d then wid m 3 d 0 else wid m 3 d (n - 1)).

Section Width.
Variables (m : mesh) (D : dec).
Hypothesis Hs : mesh_setup m D.

Lemma width_forms : exists mn w, (forall d, (0 <= d < m_dim m)%Z -> (0 < lenZ (w d))%Z /\ m_n m 3 d = lenZ (w d) /\ forall i, (0 <= i < lenZ (w d))%Z -> wid m 3 d i = wd (w d) i) /\
  forall f d, (0 <= f < m_dim m)%Z -> (0 <= d < m_dim m)%Z ->
    m_n m f d = (if (f =? d)%Z then own_n (periodic_dir m d) (lenZ (w d)) else lenZ (w d)) /\
    forall i, (-1 <= i <= m_n m f d)%Z ->
      crd m f d i = (if (f =? d)%Z then own_c (periodic_dir m d) (mn d) (w d) i else oth_c (periodic_dir m d) (mn d) (w d) i) /\
      wid m f d i = (if (f =? d)%Z then own_w (periodic_dir m d) (w d) i else oth_w (periodic_dir m d) (w d) i).
Proof.
  destruct Hs as (mn & mx & per & w & np & Hg & Hm & Hper & _). exists mn, w.
  pose proof (createMesh_misc _ _ _ _ _ _ Hm) as (_ & _ & _ & Hpe). split.
  - intros d Hd. destruct (axis_facts _ _ _ _ Hg d Hd) as (Hn & _). destruct (mesh_pressure _ _ _ _ _ _ Hm d Hd) as (A & B & _).
    split; [exact Hn|]. split; [exact A|]. intros i Hi. unfold wid. rewrite (proj2 (B i Hi)). cbn [ok_or]. rewrite vtx_S by auto. lra.
  - intros f d Hf Hd. destruct (mesh_velocity _ _ _ _ _ _ Hg Hm f d Hf Hd) as (A & B & _). unfold vn, vc, vw in *. unfold periodic_dir. rewrite Hpe, <- (Hper f d) by auto.
    split; [exact A|]. intros i Hi. rewrite A in Hi. destruct (B i Hi) as [C E]. unfold crd, wid. rewrite C, E. split; reflexivity.
Qed.

Lemma own_gap f i : (0 <= f < m_dim m)%Z -> (0 <= i <= m_n m f f)%Z -> crd m f f i - crd m f f (i - 1) = cw m f i.
Proof.
  intros Hf Hi. destruct width_forms as (mn & w & W3 & W). destruct (W f f Hf Hf) as [Hn W']. destruct (W3 f Hf) as (HN & Hn3 & W3').
  rewrite (proj1 (W' i ltac:(lia))), (proj1 (W' (i - 1)%Z ltac:(lia))). rewrite Z.eqb_refl in *. unfold own_c, own_n, cw in *. rewrite Hn3.
  destruct (Z.ltb_spec i 0); [lia|]. replace (i - 1 + 1)%Z with i by lia.
  destruct (Z.leb_spec (i - 1) (lenZ (w f) - 1)); [|destruct (periodic_dir m f); lia].
  destruct (Z.leb_spec i (lenZ (w f) - 1)), (Z.ltb_spec i (lenZ (w f))); try lia.
  - rewrite vtx_S, W3' by lia. lra.
  - destruct (periodic_dir m f); [|lia]. replace i with (lenZ (w f)) by lia. rewrite vtx_end, W3' by lia. lra.
Qed.
Lemma own_wid f i : (0 <= f < m_dim m)%Z -> (0 <= i < m_n m f f)%Z -> wid m f f i = (cw m f i + cw m f (i + 1)) / 2.
Proof.
  intros Hf Hi. destruct width_forms as (mn & w & W3 & W). destruct (W f f Hf Hf) as [Hn W']. destruct (W3 f Hf) as (HN & Hn3 & W3').
  rewrite (proj2 (W' i ltac:(lia))). rewrite Z.eqb_refl in *. unfold own_w, own_n, cw in *. cbv zeta. rewrite Hn3.
  destruct (Z.ltb_spec i 0); [lia|]. destruct (Z.ltb_spec (i + 1) 0); [lia|].
  destruct (periodic_dir m f).
  - destruct (Z.eqb_spec i (-1)); [lia|]. destruct (Z.ltb_spec i (lenZ (w f))); [|lia]. cbn [orb].
    destruct (Z.eqb_spec i (lenZ (w f) - 1)) as [E|E]; destruct (Z.ltb_spec (i + 1) (lenZ (w f))), (Z.eqb_spec i (lenZ (w f))); try lia; rewrite !W3' by lia; rewrite <- ?E; lra.
  - destruct (Z.eqb_spec i (-1)); [lia|]. destruct (Z.eqb_spec i (lenZ (w f) - 1)); [lia|]. destruct (Z.ltb_spec i (lenZ (w f))), (Z.ltb_spec (i + 1) (lenZ (w f))); try lia. rewrite !W3' by lia. lra.
Qed.
Lemma oth_gap f d i : (0 <= f < m_dim m)%Z -> (0 <= d < m_dim m)%Z -> f <> d -> (0 <= i <= m_n m f d)%Z -> crd m f d i - crd m f d (i - 1) = (cw m d (i - 1) + cw m d i) / 2.
Proof.
  intros Hf Hd Hne Hi. destruct width_forms as (mn & w & W3 & W). destruct (W f d Hf Hd) as [Hn W']. destruct (W3 d Hd) as (HN & Hn3 & W3').
  rewrite (proj1 (W' i ltac:(lia))), (proj1 (W' (i - 1)%Z ltac:(lia))). destruct (Z.eqb_spec f d); [lia|]. unfold oth_c, cw. cbv zeta. rewrite Hn3. rewrite Hn in Hi.
  destruct (Z.eqb_spec i (-1)); [lia|]. destruct (Z.eqb_spec (i - 1) (lenZ (w d))); [lia|]. destruct (Z.ltb_spec i 0); [lia|].
  destruct (Z.eqb_spec (i - 1) (-1)) as [E1|E1], (Z.ltb_spec (i - 1) 0), (Z.ltb_spec i (lenZ (w d))), (Z.eqb_spec i (lenZ (w d))) as [E2|E2]; try lia.
  - assert (i = 0)%Z by lia. subst i. unfold ctr. rewrite vtx_S, vtx_0 by lia. destruct (periodic_dir m d); rewrite !W3' by lia; lra.
  - destruct (Z.ltb_spec (i - 1) (lenZ (w d))); [|lia]. unfold ctr. replace (i - 1 + 1)%Z with i by lia. rewrite (vtx_S _ _ i) by lia. replace (vtx (mn d) (w d) i) with (vtx (mn d) (w d) (i - 1 + 1)) by (f_equal; lia).
    rewrite vtx_S by lia. rewrite !W3' by lia. lra.
  - destruct (Z.ltb_spec (i - 1) (lenZ (w d))); [|lia]. unfold ctr. replace (i - 1 + 1)%Z with i by lia.
    pose proof (vtx_end (mn d) (w d)) as V. rewrite <- E2 in V. pose proof (vtx_S (mn d) (w d) (i - 1) ltac:(lia)) as V2. replace (i - 1 + 1)%Z with i in V2 by lia.
    rewrite <- E2, <- V, V2. rewrite (W3' (i - 1)%Z) by lia. destruct (periodic_dir m d); rewrite ?W3' by lia; lra.
Qed.
Lemma oth_wid f d i : (0 <= f < m_dim m)%Z -> (0 <= d < m_dim m)%Z -> f <> d -> (0 <= i < m_n m f d)%Z -> wid m f d i = cw m d i.
Proof.
  intros Hf Hd Hne Hi. destruct width_forms as (mn & w & W3 & W). destruct (W f d Hf Hd) as [Hn W']. destruct (W3 d Hd) as (HN & Hn3 & W3').
  rewrite (proj2 (W' i ltac:(lia))). destruct (Z.eqb_spec f d); [lia|]. unfold oth_w, cw. cbv zeta. rewrite Hn3. rewrite Hn in Hi.
  destruct (Z.eqb_spec i (-1)); [lia|]. destruct (Z.eqb_spec i (lenZ (w d))); [lia|]. destruct (Z.ltb_spec i 0); [lia|]. destruct (Z.ltb_spec i (lenZ (w d))); [|lia]. rewrite W3' by lia. reflexivity.
Qed.
Lemma cw_pos d i : (0 <= d < m_dim m)%Z -> 0 < cw m d i.
Proof.
  intros Hd. pose proof (setup_facts _ _ Hs) as F. destruct width_forms as (mn & w & W3 & W). destruct (W3 d Hd) as (HN & Hn3 & _).
  assert (K : forall j, (0 <= j < m_n m 3 d)%Z -> 0 < wid m 3 d j) by (intros j Hj; apply (mf_pwid _ _ F d j Hd Hj)).
  unfold cw. destruct (Z.ltb_spec i 0); [destruct (periodic_dir m d); apply K; lia|]. destruct (Z.ltb_spec i (m_n m 3 d)); [apply K; lia|]. destruct (periodic_dir m d); apply K; lia.
Qed.
End Width.
