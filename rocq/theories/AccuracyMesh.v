(** Where the points of a mesh are, and what the extended vectors hold there. *)
From Coq Require Import ZifyBool.
From Verif Require Import Prelude ZSum RSum TypesModel GridModel GridSpec GridProof MeshProof IndexModel IndexSpec IndexProof
  BoundaryModel BoundarySpec BoundaryProof OperatorModel OperatorSpec OperatorProof BStateProof MatModel ConvModel ConvSpec DeltaProof AccuracySpec.
Local Open Scope R_scope.

(** * Places *)
Lemma sc_put s d x e : (0 <= d < 3)%Z -> (0 <= e < 3)%Z -> sc (put s d x) e = if (e =? d)%Z then x else sc s e.
Proof.
  destruct s as [[a b] c]. intros Hd He. assert (d = 0 \/ d = 1 \/ d = 2)%Z as [->|[->| ->]] by lia; assert (e = 0 \/ e = 1 \/ e = 2)%Z as [->|[->| ->]] by lia; reflexivity.
Qed.
Lemma spot_ext s t : (forall d, (0 <= d < 3)%Z -> sc s d = sc t d) -> s = t.
Proof.
  destruct s as [[a b] c], t as [[a' b'] c']. intros H. pose proof (H 0%Z ltac:(lia)). pose proof (H 1%Z ltac:(lia)). pose proof (H 2%Z ltac:(lia)). simpl in *. congruence.
Qed.
Lemma put_put s d x y : put (put s d x) d y = put s d y.
Proof. destruct s as [[a b] c]. unfold put. destruct (d =? 0)%Z, (d =? 1)%Z; reflexivity. Qed.
Lemma put_sc s d : (0 <= d < 3)%Z -> put s d (sc s d) = s.
Proof. intros Hd. apply spot_ext. intros e He. rewrite sc_put by auto. destruct (Z.eqb_spec e d) as [->|]; reflexivity. Qed.
Lemma put_comm s d x e y : (0 <= d < 3)%Z -> (0 <= e < 3)%Z -> d <> e -> put (put s d x) e y = put (put s e y) d x.
Proof.
  intros Hd He Hne. apply spot_ext. intros c Hc. rewrite !sc_put by auto. destruct (Z.eqb_spec c e), (Z.eqb_spec c d); auto; subst; contradiction.
Qed.
Lemma sc_site m f p d : (0 <= d < m_dim m)%Z -> (m_dim m = 2 \/ m_dim m = 3)%Z -> sc (site m f p) d = crd m f d (pc p d).
Proof.
  intros Hd Hm. unfold site, sc. destruct (Z.eqb_spec d 0) as [->|]; auto. destruct (Z.eqb_spec d 1) as [->|]; auto.
  replace d with 2%Z by lia. replace (m_dim m =? 3)%Z with true by lia. reflexivity.
Qed.
Lemma sc_site_flat m f p : m_dim m = 2%Z -> sc (site m f p) 2 = 0.
Proof. intros E. unfold site, sc. rewrite E. reflexivity. Qed.

Section Around.
Context (m : mesh) (Hdim : (m_dim m = 2 \/ m_dim m = 3)%Z) (s0 : spot) (r : Z -> R) (Hr : forall d, (0 <= d < m_dim m)%Z -> 0 <= r d).
Lemma around_self : around m s0 r s0.
Proof. intros d Hd. rewrite Rminus_diag_eq, Rabs_R0 by reflexivity. destruct (Z.ltb_spec d (m_dim m)); [apply Hr; lia|lra]. Qed.
Lemma around_put s d t : (0 <= d < m_dim m)%Z -> around m s0 r s -> Rabs (t - sc s0 d) <= r d -> around m s0 r (put s d t).
Proof.
  intros Hd Hs Ht e He. rewrite sc_put by lia. destruct (Z.eqb_spec e d) as [->|]; [|now apply Hs].
  replace (d <? m_dim m)%Z with true by lia. exact Ht.
Qed.
(** Derivatives along a line. *)
Lemma on_line n g der l s d t : derivatives m (around m s0 r) n g der -> (length l < n)%nat -> Forall (fun e => 0 <= e < m_dim m)%Z l -> (0 <= d < m_dim m)%Z ->
  around m s0 r s -> Rabs (t - sc s0 d) <= r d ->
  derivable_pt_lim (fun t => der l (put s d t)) t (der (d :: l) (put s d t)).
Proof.
  intros [_ H] Hl Hf Hd Hs Ht. pose proof (H l d Hl Hf Hd (put s d t) (around_put s d t Hd Hs Ht)) as X.
  rewrite sc_put, Z.eqb_refl in X by lia. intros eps He. destruct (X eps He) as (dl & Hdl). exists dl. intros k Hk Hk'.
  specialize (Hdl k Hk Hk'). now rewrite !put_put in Hdl.
Qed.
End Around.

(** * Coordinates *)
Section Mesh.
Context (m : mesh) (D : dec) (Hs : mesh_setup m D).
Let F := setup_facts m D Hs.
Let Hdim := mf_dim _ _ F.

(** The vertices, continued by one cell around a periodic direction; the cell
    widths, counted around it. *)
Definition EV (d k : Z) : R :=
  if (k <? 0)%Z then m_min m d - wid m 3 d (m_n m 3 d - 1) else if (m_n m 3 d <? k)%Z then m_max m d + wid m 3 d 0 else crd m 4 d k.
Definition EW (d k : Z) : R := wid m 3 d (wrap (m_n m 3 d) k).
Definition at_cell (d k : Z) : Prop := (0 <= k < m_n m 3 d)%Z \/ (periodic_dir m d = true /\ (-1 <= k <= m_n m 3 d)%Z).

Lemma n3_pos d : (0 <= d < m_dim m)%Z -> (1 <= m_n m 3 d)%Z.
Proof. intros Hd. eapply sizes_pos; eauto. lia. Qed.
Lemma wrap_cases d k : (0 <= d < m_dim m)%Z -> (-1 <= k <= m_n m 3 d)%Z ->
  (k = -1 /\ wrap (m_n m 3 d) k = m_n m 3 d - 1)%Z \/ (k = m_n m 3 d /\ wrap (m_n m 3 d) k = 0)%Z \/ ((0 <= k < m_n m 3 d) /\ wrap (m_n m 3 d) k = k)%Z.
Proof.
  intros Hd Hk. pose proof (n3_pos d Hd) as N. set (n := m_n m 3 d) in *. unfold wrap.
  destruct (Z.eq_dec k (-1)) as [->|]; [left; split; auto; symmetry; apply (Z.mod_unique _ _ (-1)); lia|].
  destruct (Z.eq_dec k n) as [->|]; [right; left; split; auto; apply Z.mod_same; lia|].
  right. right. split; [lia|]. apply Z.mod_small. lia.
Qed.
Lemma EW_pos d k : (0 <= d < m_dim m)%Z -> at_cell d k -> 0 < EW d k.
Proof.
  intros Hd Hk. unfold EW. pose proof (n3_pos d Hd). apply (mf_pwid _ _ F); auto. unfold wrap. apply Z.mod_pos_bound. lia.
Qed.
Lemma EV_step d k : (0 <= d < m_dim m)%Z -> at_cell d k -> EV d (k + 1) - EV d k = EW d k.
Proof.
  intros Hd Hk. pose proof (n3_pos d Hd) as N. destruct (vert_ends m D Hs d Hd) as [V0 VN]. unfold EV, EW.
  destruct (wrap_cases d k Hd) as [(-> & ->)|[(E & ->)|(Hk' & ->)]].
  - destruct Hk as [Hk|[_ Hk]]; lia.
  - change (-1 + 1)%Z with 0%Z. replace (0 <? 0)%Z with false by lia. replace (m_n m 3 d <? 0)%Z with false by lia. replace (-1 <? 0)%Z with true by lia. rewrite V0. lra.
  - replace (k + 1 <? 0)%Z with false by lia. replace (m_n m 3 d <? k + 1)%Z with true by lia. replace (k <? 0)%Z with false by lia. replace (m_n m 3 d <? k)%Z with false by lia.
    rewrite E, VN. lra.
  - replace (k + 1 <? 0)%Z with false by lia. replace (m_n m 3 d <? k + 1)%Z with false by lia. replace (k <? 0)%Z with false by lia. replace (m_n m 3 d <? k)%Z with false by lia.
    destruct (vert_step m D Hs d k Hd Hk') as [VS _]. lra.
Qed.
Lemma EV_period d k : (0 <= d < m_dim m)%Z -> periodic_dir m d = true -> (-1 <= k <= m_n m 3 d)%Z ->
  exists j : Z, (j = -1 \/ j = 0 \/ j = 1)%Z /\
   EV d k = EV d (wrap (m_n m 3 d) k) + IZR j * (m_max m d - m_min m d) /\ EV d (k + 1) = EV d (wrap (m_n m 3 d) k + 1) + IZR j * (m_max m d - m_min m d).
Proof.
  intros Hd Hp Hk. pose proof (n3_pos d Hd) as N. destruct (vert_ends m D Hs d Hd) as [V0 VN].
  destruct (wrap_cases d k Hd Hk) as [(-> & ->)|[(-> & ->)|(Hk' & ->)]].
  - exists (-1)%Z. split; [lia|]. change (-1 + 1)%Z with 0%Z. replace (m_n m 3 d - 1 + 1)%Z with (m_n m 3 d) by lia.
    pose proof (EV_step d (m_n m 3 d - 1) Hd ltac:(left; lia)) as S1. replace (m_n m 3 d - 1 + 1)%Z with (m_n m 3 d) in S1 by lia.
    unfold EV, EW in *. replace (wrap (m_n m 3 d) (m_n m 3 d - 1)) with (m_n m 3 d - 1)%Z in S1 by (unfold wrap; symmetry; apply Z.mod_small; lia).
    replace (-1 <? 0)%Z with true by lia. replace (m_n m 3 d <? 0)%Z with false in * by lia. replace (m_n m 3 d <? m_n m 3 d)%Z with false in * by lia.
    replace (0 <? 0)%Z with false by lia. rewrite V0. rewrite VN in *. split; lra.
  - exists 1%Z. split; [lia|]. change (0 + 1)%Z with 1%Z.
    pose proof (EV_step d 0 Hd ltac:(left; lia)) as S1. change (0 + 1)%Z with 1%Z in S1.
    unfold EV, EW in *. replace (wrap (m_n m 3 d) 0) with 0%Z in S1 by (unfold wrap; symmetry; apply Z.mod_small; lia).
    replace (m_n m 3 d <? 0)%Z with false in * by lia. replace (m_n m 3 d <? m_n m 3 d)%Z with false in * by lia. replace (m_n m 3 d + 1 <? 0)%Z with false by lia.
    replace (m_n m 3 d <? m_n m 3 d + 1)%Z with true by lia. replace (0 <? 0)%Z with false in * by lia. replace (1 <? 0)%Z with false in * by lia. replace (m_n m 3 d <? 1)%Z with false in * by lia. rewrite V0 in *. rewrite VN in *. split; lra.
  - exists 0%Z. split; [lia|]. split; lra.
Qed.

Lemma own_place f i : (0 <= f < m_dim m)%Z -> (-1 <= i <= m_n m f f)%Z -> crd m f f i = EV f (i + 1).
Proof.
  intros Hf Hi. pose proof Hs as (mn & mx & per & w & np & Hg & Hm & Hper & _).
  destruct (createMesh_misc _ _ _ _ _ _ Hm) as (_ & Emn & Emx & _).
  destruct (mesh_velocity _ _ _ _ _ _ Hg Hm f f Hf Hf) as (En & Hc & _). rewrite En in Hi.
  destruct (mesh_vertex _ _ _ _ _ _ Hm f Hf) as (_ & Hv & _). destruct (mesh_pressure _ _ _ _ _ _ Hm f Hf) as (E3 & H3 & _).
  destruct (axis_facts _ _ _ _ Hg f Hf) as (Hne & _ & Hmx).
  destruct (Hc i Hi) as [Ec _]. unfold EV. rewrite E3, Emn, Emx. unfold crd at 1. rewrite Ec. cbn [ok_or]. unfold vc, vn in *. rewrite Z.eqb_refl in *.
  unfold own_c, own_n in *. replace (i + 1 <? 0)%Z with false by lia. destruct (Z.leb_spec i (lenZ (w f) - 1)).
  - replace (lenZ (w f) <? i + 1)%Z with false by lia. unfold crd. rewrite Hv by lia. reflexivity.
  - replace (lenZ (w f) <? i + 1)%Z with true by lia. unfold wid. rewrite (proj2 (H3 0%Z ltac:(lia))). cbn [ok_or]. rewrite vtx_S by lia. rewrite Hmx. lra.
Qed.
Lemma other_place f d i : (0 <= f < m_dim m)%Z -> (0 <= d < m_dim m)%Z -> f <> d -> at_cell d i -> crd m f d i = (EV d i + EV d (i + 1)) / 2.
Proof.
  intros Hf Hd Hne Hi. pose proof (EV_step d i Hd Hi) as S1. pose proof Hs as (mn & mx & per & w & np & Hg & Hm & Hper & _).
  destruct (createMesh_misc _ _ _ _ _ _ Hm) as (_ & Emn & Emx & Epe).
  destruct (mesh_velocity _ _ _ _ _ _ Hg Hm f d Hf Hd) as (En & Hc & _).
  destruct (mesh_vertex _ _ _ _ _ _ Hm d Hd) as (_ & Hv & _). destruct (mesh_pressure _ _ _ _ _ _ Hm d Hd) as (E3 & H3 & _).
  destruct (axis_facts _ _ _ _ Hg d Hd) as (Hn & _ & Hmx). pose proof (vtx_end (mn d) (w d)) as VE.
  assert (W : forall j, (0 <= j < lenZ (w d))%Z -> wid m 3 d j = wd (w d) j).
  { intros j Hj. unfold wid. rewrite (proj2 (H3 j Hj)). cbn [ok_or]. rewrite vtx_S by lia. lra. }
  assert (N1 : (-1 <= i <= m_n m 3 d)%Z) by (unfold at_cell in Hi; destruct Hi as [Hi|[_ Hi]]; lia).
  pose proof (wrap_cases d i Hd N1) as WC. unfold at_cell, EW in *. rewrite E3 in *.
  assert (N : (-1 <= i <= vn per w f d)%Z) by (unfold vn; replace (f =? d)%Z with false by lia; lia).
  destruct (Hc i N) as [Ec _]. unfold crd at 1. rewrite Ec. cbn [ok_or]. unfold vc. replace (f =? d)%Z with false by lia. unfold oth_c.
  assert (P : periodic_dir m d = per f d) by (unfold periodic_dir; rewrite Epe; symmetry; auto). rewrite P in Hi.
  destruct WC as [(-> & E)|[(E0 & E)|(Hk & E)]]; rewrite E in S1.
  - replace (-1 =? -1)%Z with true by lia. destruct Hi as [Hi|[-> _]]; [lia|]. rewrite W in S1 by lia.
    unfold EV in *. change (-1 + 1)%Z with 0%Z in *. rewrite E3, Emn, Emx in *. replace (0 <? 0)%Z with false in * by lia. replace (lenZ (w d) <? 0)%Z with false in * by lia. replace (-1 <? 0)%Z with true in * by lia. unfold crd in *.
    rewrite Hv in * by lia. cbn [ok_or] in *. rewrite vtx_0 in *. rewrite W by lia. lra.
  - replace (i =? -1)%Z with false by lia. replace (i =? lenZ (w d))%Z with true by lia. destruct Hi as [Hi|[-> _]]; [lia|]. rewrite W in S1 by lia. rewrite E0 in *.
    unfold EV in *. rewrite E3, Emn, Emx in *. replace (lenZ (w d) + 1 <? 0)%Z with false in * by lia. replace (lenZ (w d) <? 0)%Z with false in * by lia. replace (lenZ (w d) <? lenZ (w d))%Z with false in * by lia.
    replace (lenZ (w d) <? lenZ (w d) + 1)%Z with true in * by lia. unfold crd in *. rewrite Hv in * by lia. cbn [ok_or] in *. rewrite VE in *. lra.
  - replace (i =? -1)%Z with false by lia. replace (i =? lenZ (w d))%Z with false by lia. unfold ctr, EV. rewrite E3. replace (i <? 0)%Z with false by lia. replace (i + 1 <? 0)%Z with false by lia.
    replace (lenZ (w d) <? i)%Z with false by lia. replace (lenZ (w d) <? i + 1)%Z with false by lia. unfold crd. rewrite !Hv by lia. reflexivity.
Qed.
Lemma cell_place d k : (0 <= d < m_dim m)%Z -> (0 <= k < m_n m 3 d)%Z -> crd m 3 d k = (EV d k + EV d (k + 1)) / 2.
Proof.
  intros Hd Hk. pose proof Hs as (mn & mx & per & w & np & Hg & Hm & _).
  destruct (mesh_vertex _ _ _ _ _ _ Hm d Hd) as (_ & Hv & _). destruct (mesh_pressure _ _ _ _ _ _ Hm d Hd) as (E3 & H3 & _). rewrite E3 in Hk.
  unfold EV. rewrite E3. replace (k <? 0)%Z with false by lia. replace (k + 1 <? 0)%Z with false by lia.
  replace (lenZ (w d) <? k)%Z with false by lia. replace (lenZ (w d) <? k + 1)%Z with false by lia. unfold crd. rewrite (proj1 (H3 k Hk)), !Hv by lia. reflexivity.
Qed.
Lemma own_span f i : (0 <= f < m_dim m)%Z -> (0 <= i < m_n m f f)%Z -> wid m f f i = (EW f i + EW f (i + 1)) / 2.
Proof.
  intros Hf Hi. pose proof (mf_n_own _ _ F f Hf) as N. pose proof (n3_pos f Hf) as N3.
  rewrite (vel_wid m D Hs f f i Hf Hf) by (destruct (periodic_dir m f); lia). rewrite Z.eqb_refl. unfold EW.
  replace (wrap (m_n m 3 f) i) with i by (unfold wrap; symmetry; apply Z.mod_small; destruct (periodic_dir m f); lia).
  destruct (Z.eqb_spec i (m_n m 3 f - 1)) as [E|E].
  - destruct (periodic_dir m f); [|lia]. replace (wrap (m_n m 3 f) (i + 1)) with 0%Z; [lra|].
    replace (i + 1)%Z with (m_n m 3 f) by lia. unfold wrap. symmetry. apply Z.mod_same. lia.
  - replace (wrap (m_n m 3 f) (i + 1)) with (i + 1)%Z; [lra|]. unfold wrap. symmetry. apply Z.mod_small. destruct (periodic_dir m f); lia.
Qed.
Lemma other_span f d i : (0 <= f < m_dim m)%Z -> (0 <= d < m_dim m)%Z -> f <> d -> (0 <= i < m_n m 3 d)%Z -> wid m f d i = EW d i.
Proof.
  intros Hf Hd Hne Hi. rewrite (mf_wid_oth _ _ F f d i Hf Hd Hne Hi). unfold EW, wrap. now rewrite Z.mod_small by lia.
Qed.

(** Going once around a periodic direction. *)
Lemma around_place f d i : (0 <= f < m_dim m)%Z -> (0 <= d < m_dim m)%Z -> periodic_dir m d = true -> (-1 <= i <= m_n m f d)%Z ->
  exists j : Z, (j = -1 \/ j = 0 \/ j = 1)%Z /\ crd m f d i = crd m f d (wrap (m_n m f d) i) + IZR j * (m_max m d - m_min m d).
Proof.
  intros Hf Hd Hp Hi. assert (En : m_n m f d = m_n m 3 d).
  { destruct (Z.eq_dec f d) as [<-|Hne]; [rewrite (mf_n_own _ _ F f Hf), Hp; reflexivity|apply (mf_n_oth _ _ F); lia]. }
  rewrite En in Hi. destruct (EV_period d i Hd Hp Hi) as (j & Hj & E0 & E1). exists j. split; [exact Hj|]. rewrite En. pose proof (n3_pos d Hd).
  assert (Wr : (0 <= wrap (m_n m 3 d) i < m_n m 3 d)%Z) by (unfold wrap; apply Z.mod_pos_bound; lia).
  destruct (Z.eq_dec f d) as [<-|Hne].
  - rewrite !own_place by lia. exact E1.
  - rewrite !other_place by (auto; unfold at_cell; auto; left; lia). rewrite E0, E1. lra.
Qed.

(** * Extended vectors *)
Lemma repeat_times g d s j : repeating m g -> (0 <= d < m_dim m)%Z -> periodic_dir m d = true -> (j = -1 \/ j = 0 \/ j = 1)%Z ->
  g (put s d (sc s d + IZR j * (m_max m d - m_min m d))) = g s.
Proof.
  intros Hg Hd Hp [->|[->| ->]].
  - rewrite <- (Hg d (put s d (sc s d + -1 * (m_max m d - m_min m d))) Hd Hp). rewrite put_put, sc_put, Z.eqb_refl by lia.
    replace (sc s d + -1 * (m_max m d - m_min m d) + (m_max m d - m_min m d)) with (sc s d) by lra. now rewrite put_sc by lia.
  - replace (sc s d + 0 * (m_max m d - m_min m d)) with (sc s d) by lra. now rewrite put_sc by lia.
  - replace (sc s d + 1 * (m_max m d - m_min m d)) with (sc s d + (m_max m d - m_min m d)) by lra. now apply Hg.
Qed.
(** Two places that agree up to turns around periodic directions. *)
Definition turned (s t : spot) : Prop :=
  forall d, (0 <= d < 3)%Z -> sc s d = sc t d \/
    ((d < m_dim m)%Z /\ periodic_dir m d = true /\ exists j : Z, (j = -1 \/ j = 0 \/ j = 1)%Z /\ sc s d = sc t d + IZR j * (m_max m d - m_min m d)).
Lemma repeat_turned g s t : repeating m g -> turned s t -> g s = g t.
Proof.
  intros Hg H.
  assert (One : forall d u, (0 <= d < 3)%Z -> sc u d = sc t d -> g (put u d (sc s d)) = g u).
  { intros d u Hd E. destruct (H d Hd) as [E'|(Hm & Hp & j & Hj & E')].
    - rewrite E', <- E. now rewrite put_sc.
    - rewrite E', <- E. apply repeat_times; auto. lia. }
  assert (Es : s = put (put (put t 0 (sc s 0)) 1 (sc s 1)) 2 (sc s 2)) by (destruct s as [[a b] c], t as [[a' b'] c']; reflexivity).
  rewrite Es. rewrite One; [|lia|destruct t as [[a' b'] c']; reflexivity]. rewrite One; [|lia|destruct t as [[a' b'] c']; reflexivity].
  rewrite One; [reflexivity|lia|reflexivity].
Qed.

(** The points that an extended vector knows without a ghost value. *)
Definition inside_or_around (f : Z) (q : pt) : Prop :=
  forall e, (0 <= e < 3)%Z -> (0 <= pc q e < m_n m f e)%Z \/ ((e < m_dim m)%Z /\ periodic_dir m e = true /\ (-1 <= pc q e <= m_n m f e)%Z).
Lemma see B x u v f q : extends_box m D B x u -> velocity_of m D v x -> repeating m (v f) -> (0 <= f < m_dim m)%Z ->
  inside_or_around f q -> u f q = v f (site m f q).
Proof.
  intros [[X0 _] X1] Hx Hv Hf Hq.
  assert (Hn : forall d, (0 <= d < 3)%Z -> (1 <= m_n m f d)%Z) by (intros; eapply sizes_pos; eauto).
  rewrite X1; [| auto | |].
  2: { apply in_frame_pc. intros e He. destruct (Hq e He) as [?|(_ & _ & ?)]; lia. }
  2: { apply has_image_pc. intros e He Ho. destruct (Hq e He) as [Hq'|(_ & ? & _)]; auto. unfold outside in Ho. lia. }
  assert (Hi : interior (m_n m f) (image (m_n m f) q)) by (apply IndexProof.image_interior; apply Hn; lia).
  destruct (idx_spec m D f _ F Hf Hi) as [_ Hid]. rewrite (X0 _ _ _ Hid), (Hx _ _ _ Hid).
  symmetry. apply repeat_turned; [exact Hv|]. intros d Hd.
  destruct (Z_lt_dec d (m_dim m)) as [Hd'|Hd'].
  - rewrite !sc_site by (auto; lia). rewrite pc_image by auto. destruct (Hq d Hd) as [Hq'|(_ & Hp & Hq')].
    + left. unfold wrap. now rewrite Z.mod_small.
    + right. split; [exact Hd'|]. split; [exact Hp|]. apply around_place; auto. lia.
  - left. assert (m_dim m = 2)%Z by lia. replace d with 2%Z by lia. now rewrite !sc_site_flat.
Qed.
End Mesh.
