From Coq Require Import Permutation ZifyBool.
From Verif Require Import Prelude ZSum RSum TypesModel GridModel GridSpec GridProof MeshProof
  IndexModel IndexSpec IndexProof BoundaryModel BoundarySpec BoundaryProof OperatorModel OperatorSpec OperatorProof BStateProof LapProof DivProof GradProof AdjProof.
Local Open Scope R_scope.

(** * Mesh facts *)
Lemma own_width m D f i : mesh_setup m D -> (0 <= f < m_dim m)%Z -> (0 <= i < m_n m f f)%Z ->
  wid m f f i = (crd m f f (i + 1) - crd m f f (i - 1)) / 2.
Proof.
  intros (mn & mx & per & w & np & Hg & Hm & Hper & _) Hf Hi.
  destruct (mesh_velocity _ _ _ _ _ _ Hg Hm f f Hf Hf) as (A & B & _). destruct (axis_facts _ _ _ _ Hg f Hf) as (Hne & Hp & Hmx).
  unfold crd, wid. rewrite A in Hi. destruct (B i ltac:(lia)) as [_ W]. destruct (B (i + 1)%Z ltac:(lia)) as [E1 _]. destruct (B (i - 1)%Z ltac:(lia)) as [E2 _].
  rewrite W, E1, E2. cbn [ok_or]. unfold vc, vw, vn in *. rewrite Z.eqb_refl in *. set (N := lenZ (w f)) in *.
  unfold own_c, own_w, own_n in *. fold N. replace (i =? -1)%Z with false by lia. cbn [orb].
  pose proof (vtx_S (mn f) (w f) i) as V0. pose proof (vtx_S (mn f) (w f) (i + 1)) as V1. fold N in V0, V1.
  replace (i - 1 <=? N - 1)%Z with true by (destruct (per f f); lia). replace (i - 1 + 1)%Z with i by lia.
  pose proof (vtx_end (mn f) (w f)) as VE. fold N in VE.
  destruct (per f f).
  - destruct (Z.eqb_spec i (N - 1)) as [E|E].
    + replace (i + 1 <=? N - 1)%Z with false by lia. rewrite V0 in * by lia. replace (i + 1)%Z with N in V0 by lia.
      specialize (V0 ltac:(lia)). rewrite VE in V0. rewrite V0. subst i. lra.
    + replace (i + 1 <=? N - 1)%Z with true by lia. replace (i =? N)%Z with false by lia. rewrite V1 by lia. rewrite V0 by lia. lra.
  - replace (i =? N - 1)%Z with false by lia. replace (i + 1 <=? N - 1)%Z with true by lia. rewrite V1 by lia. rewrite V0 by lia. lra.
Qed.

Lemma periodic_gap m D f d : mesh_setup m D -> (0 <= f < m_dim m)%Z -> (0 <= d < m_dim m)%Z -> periodic_dir m d = true ->
  crd m f d (m_n m f d) - crd m f d (m_n m f d - 1) = crd m f d 0 - crd m f d (-1).
Proof.
  intros (mn & mx & per & w & np & Hg & Hm & Hper & _) Hf Hd Hp.
  assert (Hpd : per f d = true).
  { rewrite Hper by auto. unfold periodic_dir in Hp. destruct (createMesh_misc _ _ _ _ _ _ Hm) as (_ & _ & _ & X). rewrite X in Hp. exact Hp. }
  destruct (periodic_statement _ _ _ _ _ _ Hg Hm f d Hf Hd Hpd) as (A & (x & B1 & B2) & (y & C1 & C2) & _).
  unfold crd. rewrite B1, B2, C1, C2. cbn. lra.
Qed.

(** * Consistency *)
Lemma second_linear m D f d i a b : mfacts m D -> (0 <= f < m_dim m)%Z -> (0 <= d < m_dim m)%Z -> (0 <= i < m_n m f d)%Z ->
  second_difference m f d (fun j => a + b * crd m f d j) i = 0.
Proof.
  intros F Hf Hd Hi. unfold second_difference.
  pose proof (mf_incr _ _ F f d i (i + 1)%Z Hf Hd ltac:(lia) ltac:(lia) ltac:(lia)).
  pose proof (mf_incr _ _ F f d (i - 1)%Z i Hf Hd ltac:(lia) ltac:(lia) ltac:(lia)).
  destruct (mf_wid _ _ F f d i Hf Hd ltac:(lia)) as [_ W]. field. repeat split; lra.
Qed.

Lemma laplacian_linear_lemma m D f a b p : mfacts m D -> (0 <= f < m_dim m)%Z -> interior (m_n m f) p ->
  laplacian_at m f (fun g q => a + zsum (fun d => b d * crd m g d (pc q d)) 0 (m_dim m)) p = 0.
Proof.
  intros F Hf Hp. unfold laplacian_at, zsum at 1. apply sumR_zero. intros d Hd. apply zrange_In in Hd. pose proof (mf_dim _ _ F) as Hdim.
  rewrite interior_pc in Hp. specialize (Hp d ltac:(lia)).
  set (c := a + sumR (fun e => if (e =? d)%Z then 0 else b e * crd m f e (pc p e)) (zrange 0 (m_dim m))).
  assert (E : forall i, a + zsum (fun e => b e * crd m f e (pc (setc p d i) e)) 0 (m_dim m) = c + b d * crd m f d i).
  { intros i. unfold c, zsum. rewrite (sumR_ext _ (fun e => (if (e =? d)%Z then 0 else b e * crd m f e (pc p e)) + (if (e =? d)%Z then b d * crd m f d i else 0))).
    - rewrite sumR_plus. rewrite (sumR_single (fun e => if (e =? d)%Z then b d * crd m f d i else 0) _ d); [rewrite Z.eqb_refl; lra|apply zrange_NoDup|now apply zrange_In|].
      intros e _ Hne. replace (e =? d)%Z with false by lia. reflexivity.
    - intros e He. apply zrange_In in He. rewrite pc_setc by lia. destruct (Z.eqb_spec e d) as [->|]; lra. }
  unfold second_difference. rewrite !E. rewrite <- (second_linear m D f d (pc p d) c (b d) F Hf Hd ltac:(lia)). reflexivity.
Qed.

Lemma laplacian_square_lemma m D f p : mesh_setup m D -> (0 <= f < m_dim m)%Z -> interior (m_n m f) p ->
  laplacian_at m f (fun g q => crd m g g (pc q g) * crd m g g (pc q g)) p = 2.
Proof.
  intros Hs Hf Hp. pose proof (setup_facts _ _ Hs) as F. pose proof (mf_dim _ _ F) as Hdim. rewrite interior_pc in Hp.
  unfold laplacian_at, zsum. rewrite (sumR_single _ _ f); [|apply zrange_NoDup|now apply zrange_In|].
  - unfold second_difference. rewrite !pc_setc by lia. rewrite !Z.eqb_refl. specialize (Hp f ltac:(lia)). set (i := pc p f) in *.
    pose proof (mf_incr _ _ F f f i (i + 1)%Z Hf Hf ltac:(lia) ltac:(lia) ltac:(lia)).
    pose proof (mf_incr _ _ F f f (i - 1)%Z i Hf Hf ltac:(lia) ltac:(lia) ltac:(lia)).
    rewrite (own_width m D) by auto. field. repeat split; lra.
  - intros d Hd Hne. apply zrange_In in Hd. unfold second_difference. rewrite !pc_setc by lia. replace (f =? d)%Z with false by lia.
    unfold Rdiv, Rminus. rewrite !Rplus_opp_r, !Rmult_0_l, Rplus_opp_r, !Rmult_0_l. reflexivity.
Qed.

(** * Symmetry *)
Definition coef (m : mesh) (f : Z) (p : pt) (d s : Z) : R := if (s =? 1)%Z then lapp m f p d else lapm m f p d.
Definition nbr (m : mesh) (f : Z) (p : pt) (d s : Z) (q : pt) : bool :=
  has_image (m_n m f) (periodic_dir m) (shift p d s) && pt_eqb (image (m_n m f) (shift p d s)) q.

Lemma nbr_spec m D f p d s q : mfacts m D -> (0 <= f < m_dim m)%Z -> (0 <= d < m_dim m)%Z -> (s = 1 \/ s = -1)%Z ->
  interior (m_n m f) p -> interior (m_n m f) q ->
  (nbr m f p d s q = true <->
   (forall e, (0 <= e < 3)%Z -> e <> d -> pc q e = pc p e) /\
   ((pc q d = pc p d + s)%Z \/ (periodic_dir m d = true /\ (pc q d = pc p d + s - s * m_n m f d)%Z))).
Proof.
  intros F Hf Hd Hs Hp Hq. pose proof (mf_dim _ _ F) as Hdim. rewrite interior_pc in Hp, Hq.
  assert (Hn : forall e, (0 <= e < 3)%Z -> (1 <= m_n m f e)%Z) by (intros; eapply sizes_pos; eauto).
  pose proof (Hp d ltac:(lia)) as Hpd. pose proof (Hq d ltac:(lia)) as Hqd. pose proof (Hn d ltac:(lia)) as Hnd.
  unfold nbr. rewrite andb_true_iff, has_image_pc, pt_eqb_spec.
  assert (Sh : forall e, (0 <= e < 3)%Z -> pc (shift p d s) e = if (e =? d)%Z then (pc p d + s)%Z else pc p e).
  { intros e He. rewrite pc_shift by lia. destruct (Z.eqb_spec e d) as [->|]; reflexivity. }
  assert (Im : forall e, (0 <= e < 3)%Z -> pc (image (m_n m f) (shift p d s)) e = if (e =? d)%Z then wrap (m_n m f d) (pc p d + s) else pc p e).
  { intros e He. rewrite pc_image, Sh by lia. destruct (Z.eqb_spec e d) as [->|]; [reflexivity|]. unfold wrap. apply Z.mod_small. auto. }
  assert (W := wrap_near (m_n m f d) (pc p d + s)). split.
  - intros [H E]. assert (Ee : forall e, pc q e = pc (image (m_n m f) (shift p d s)) e) by (intros; now rewrite E). split.
    + intros e He Hne. rewrite Ee, Im by auto. replace (e =? d)%Z with false by lia. reflexivity.
    + specialize (Ee d). rewrite Im in Ee by lia. rewrite Z.eqb_refl in Ee. specialize (H d ltac:(lia)). rewrite Sh in H by lia. rewrite Z.eqb_refl in H.
      destruct (outside (m_n m f d) (pc p d + s)) eqn:O; unfold outside in O.
      * right. split; [now apply H|]. destruct Hs as [->| ->]; destruct W as [[? ?]|[[? ?]|[? ?]]]; lia.
      * left. destruct W as [[? ?]|[[? ?]|[? ?]]]; lia.
  - intros [H1 H2]. split.
    + intros e He Ho. rewrite Sh in Ho by lia. destruct (Z.eqb_spec e d) as [->|Hne].
      * destruct H2 as [H2|[H2 _]]; auto. unfold outside in Ho. lia.
      * specialize (Hp e He). unfold outside in Ho. lia.
    + apply pt_ext. intros e He. rewrite Im by auto. destruct (Z.eqb_spec e d) as [->|Hne]; [|symmetry; auto].
      destruct H2 as [H2|[H3 H2]]; [|destruct Hs as [->| ->]]; destruct W as [[? ?]|[[? ?]|[? ?]]]; lia.
Qed.

Lemma nbr_sym m D f p d s q : mfacts m D -> (0 <= f < m_dim m)%Z -> (0 <= d < m_dim m)%Z -> (s = 1 \/ s = -1)%Z ->
  interior (m_n m f) p -> interior (m_n m f) q -> nbr m f p d s q = nbr m f q d (- s) p.
Proof.
  intros F Hf Hd Hs Hp Hq. apply eq_true_iff_eq. rewrite (nbr_spec m D) by auto. rewrite (nbr_spec m D f q d (- s) p) by (auto; lia).
  split; intros [A B]; (split; [intros e He Hne; symmetry; auto|]); (destruct B as [B|[B1 B]]; [left; lia|right; split; [auto|lia]]).
Qed.

Lemma coef_sym m D f p d s q : mesh_setup m D -> (0 <= f < m_dim m)%Z -> (0 <= d < m_dim m)%Z -> (s = 1 \/ s = -1)%Z ->
  interior (m_n m f) p -> interior (m_n m f) q -> nbr m f p d s q = true ->
  point_volume m f p * coef m f p d s = point_volume m f q * coef m f q d (- s).
Proof.
  intros Hst Hf Hd Hs Hp Hq Hn. pose proof (setup_facts _ _ Hst) as F. pose proof (mf_dim _ _ F) as Hdim.
  apply (nbr_spec m D) in Hn; auto. destruct Hn as [O Pd]. rewrite interior_pc in Hp, Hq.
  pose proof (Hp d ltac:(lia)) as Hpd. pose proof (Hq d ltac:(lia)) as Hqd.
  (* cell width cancels, the remaining widths agree *)
  assert (V : exists c, point_volume m f p = c * wid m f d (pc p d) /\ point_volume m f q = c * wid m f d (pc q d)).
  { unfold point_volume. destruct Hdim as [H2|H3]; rewrite ?H2, ?H3 in *; cbn [Z.eqb Pos.eqb].
    - assert (d = 0 \/ d = 1)%Z as [->| ->] by lia.
      + exists (wid m f 1 (pc p 1)). rewrite (O 1%Z) by lia. split; lra.
      + exists (wid m f 0 (pc p 0)). rewrite (O 0%Z) by lia. split; lra.
    - assert (d = 0 \/ d = 1 \/ d = 2)%Z as [->|[->| ->]] by lia.
      + exists (wid m f 1 (pc p 1) * wid m f 2 (pc p 2)). rewrite (O 1%Z), (O 2%Z) by lia. split; lra.
      + exists (wid m f 0 (pc p 0) * wid m f 2 (pc p 2)). rewrite (O 0%Z), (O 2%Z) by lia. split; lra.
      + exists (wid m f 0 (pc p 0) * wid m f 1 (pc p 1)). rewrite (O 0%Z), (O 1%Z) by lia. split; lra. }
  destruct V as (c & -> & ->).
  destruct (mf_wid _ _ F f d (pc p d) Hf Hd ltac:(lia)) as [_ Wp]. destruct (mf_wid _ _ F f d (pc q d) Hf Hd ltac:(lia)) as [_ Wq].
  assert (Inc : forall i, (-1 <= i < m_n m f d)%Z -> 0 < crd m f d (i + 1) - crd m f d i).
  { intros i Hi. pose proof (mf_incr _ _ F f d i (i + 1)%Z Hf Hd ltac:(lia) ltac:(lia) ltac:(lia)). lra. }
  assert (G : exists g, g <> 0 /\ coef m f p d s = 1 / (g * wid m f d (pc p d)) /\ coef m f q d (- s) = 1 / (g * wid m f d (pc q d))).
  { pose proof (Inc (pc p d) ltac:(lia)) as I1. pose proof (Inc (pc p d - 1)%Z ltac:(lia)) as I2. replace (pc p d - 1 + 1)%Z with (pc p d) in I2 by lia.
    destruct Hs as [->| ->]; unfold coef; cbn [Z.eqb Pos.eqb Z.opp]; unfold lapp, lapm.
    - exists (crd m f d (pc p d + 1) - crd m f d (pc p d)). split; [lra|]. split; [reflexivity|].
      destruct Pd as [Pd|[Per Pd]]; rewrite Pd.
      + replace (pc p d + 1 - 1)%Z with (pc p d) by lia. reflexivity.
      + assert (E : pc p d = (m_n m f d - 1)%Z) by lia. rewrite E. replace (m_n m f d - 1 + 1 - 1 * m_n m f d)%Z with 0%Z by lia.
        replace (m_n m f d - 1 + 1)%Z with (m_n m f d) by lia. rewrite (periodic_gap m D f d Hst Hf Hd Per). reflexivity.
    - exists (crd m f d (pc p d) - crd m f d (pc p d - 1)). split; [lra|]. split; [reflexivity|].
      destruct Pd as [Pd|[Per Pd]]; rewrite Pd.
      + replace (pc p d + -1 + 1)%Z with (pc p d) by lia. replace (pc p d + -1)%Z with (pc p d - 1)%Z by lia. reflexivity.
      + assert (E : pc p d = 0%Z) by lia. rewrite E. replace (0 + -1 - -1 * m_n m f d)%Z with (m_n m f d - 1)%Z by lia.
        replace (m_n m f d - 1 + 1)%Z with (m_n m f d) by lia. rewrite (periodic_gap m D f d Hst Hf Hd Per). reflexivity. }
  destruct G as (g & Hg & -> & ->). field. repeat split; lra.
Qed.

Lemma lap_entry m D types values h0 f p g q : mfacts m D -> bc_fits m types -> has_ics h0 -> periodic_min m 3 ->
  (0 <= f < m_dim m)%Z -> (0 <= g < m_dim m)%Z -> interior (m_n m f) p -> interior (m_n m g) q -> (f, p) <> (g, q) ->
  entry (op_log (op_of m D types values (lap_rows m D) h0)) (idx m D f p) (idx m D g q)
  = if (f =? g)%Z then zsum (fun d => coef m f p d (-1) * indicator (nbr m f p d (-1) q) + coef m f p d 1 * indicator (nbr m f p d 1 q)) 0 (m_dim m) else 0.
Proof.
  intros F Hb Hics Hmin Hf Hg Hp Hq Hne. pose proof (mf_dim _ _ F) as Hdim.
  destruct (owner_exists D (m_n m f) f p) as (r & Hr & Hpl); auto. { apply (mf_dec _ _ F); auto. }
  assert (Hrow : In (idx m D f p, lap_items m D f p) (lap_rows m D r)).
  { unfold lap_rows. apply in_flat_map. exists f. split; [now apply zrange_In|]. apply in_map_iff. exists p. auto. }
  rewrite (op_entry m D types values (lap_rows m D) h0 r _ _ _ F Hb Hics (vrows_NoDup m D (lap_items m D) F)
      ltac:(intros; now apply (lap_HI m D r0)) ltac:(intros; now apply lap_HK) Hr Hrow) by now apply idx_range.
  unfold lap_items. cbn [sumR it_val it_col it_f it_st].
  pose proof (idx_range m D f p F Hf Hp). replace (0 <=? idx m D f p)%Z with true by lia. rewrite delta_idx by auto.
  assert (E0 : (f =? g)%Z && pt_eqb p q = false).
  { destruct (Z.eqb_spec f g) as [->|]; [|reflexivity]. cbn. destruct (pt_eqb p q) eqn:E; [|reflexivity]. apply pt_eqb_spec in E. congruence. }
  rewrite E0. unfold indicator at 1. rewrite Rmult_0_r, Rplus_0_l. unfold lap_offs. rewrite sumR_flat_map. cbn [sumR it_val it_col it_f it_st].
  assert (Item : forall d s, (0 <= d < m_dim m)%Z -> (s = 1 \/ s = -1)%Z ->
     (if (0 <=? idx m D f (shift p d s))%Z then delta (idx m D g q) (idx m D f (shift p d s))
      else ghost_lin (bpts m D types values h0 r) f (st_of (shift p d s)) (idx m D g q))
     = if (f =? g)%Z then indicator (nbr m f p d s q) else 0).
  { intros d s Hd Hs. destruct (nb_cases m D f p d s F Hf Hp Hd Hs) as (_ & _ & [(Hi & _ & I & Ei)|(Hi & Hper & Ei & L1 & L2 & L3 & L4)]).
    - assert (E1 : idx m D f (shift p d s) = idx m D f (image (m_n m f) (shift p d s))) by (unfold idx at 1; rewrite Ei; reflexivity).
      pose proof (idx_range m D f _ F Hf I). rewrite E1. replace (0 <=? idx m D f (image (m_n m f) (shift p d s)))%Z with true by lia.
      rewrite delta_idx by auto. destruct (Z.eqb_spec f g) as [<-|]; [|reflexivity]. cbn [andb]. unfold nbr. rewrite Hi. reflexivity.
    - replace (idx m D f (shift p d s)) with (-1)%Z by (unfold idx; now rewrite Ei). cbn [Z.leb Z.compare].
      set (loc := (2 * d + (if (s =? 1)%Z then 1 else 0))%Z) in *.
      rewrite (ghost_lin_value m D types values h0 r f loc) by (first [assumption | rewrite L2; exact Hper | rewrite L4; exact Hpl]).
      rewrite L4. rewrite delta_idx by auto. rewrite E0. unfold nbr. rewrite Hi. cbn [andb indicator]. destruct (f =? g)%Z; lra. }
  destruct (Z.eqb_spec f g) as [E|E].
  - unfold zsum. apply sumR_ext. intros d Hd. apply zrange_In in Hd. rewrite (Item d (-1)%Z), (Item d 1%Z) by auto. unfold coef. cbn [Z.eqb Pos.eqb]. lra.
  - apply sumR_zero. intros d Hd. apply zrange_In in Hd. rewrite (Item d (-1)%Z), (Item d 1%Z) by auto. lra.
Qed.

Lemma lap_symmetric m D types values h0 f p g q : mesh_setup m D -> bc_fits m types -> has_ics h0 -> periodic_min m 3 ->
  (0 <= f < m_dim m)%Z -> (0 <= g < m_dim m)%Z -> interior (m_n m f) p -> interior (m_n m g) q ->
  let L := op_log (op_of m D types values (lap_rows m D) h0) in
  point_volume m f p * entry L (idx m D f p) (idx m D g q) = point_volume m g q * entry L (idx m D g q) (idx m D f p).
Proof.
  intros Hst Hb Hics Hmin Hf Hg Hp Hq L. pose proof (setup_facts _ _ Hst) as F.
  destruct (Z.eq_dec f g) as [<-|Hfg].
  - destruct (pt_eqb p q) eqn:E; [apply pt_eqb_spec in E; subst; reflexivity|].
    assert (Hpq : p <> q) by (intros ->; rewrite (proj2 (pt_eqb_spec q q) eq_refl) in E; discriminate).
    unfold L. rewrite !lap_entry by (auto; congruence). rewrite Z.eqb_refl. unfold zsum. rewrite <- !sumR_scal. apply sumR_ext. intros d Hd. apply zrange_In in Hd.
    assert (X : forall s, (s = 1 \/ s = -1)%Z -> point_volume m f p * (coef m f p d s * indicator (nbr m f p d s q))
       = point_volume m f q * (coef m f q d (- s) * indicator (nbr m f q d (- s) p))).
    { intros s Hs. rewrite <- (nbr_sym m D f p d s q) by auto. destruct (nbr m f p d s q) eqn:N; cbn [indicator]; [|lra].
      pose proof (coef_sym m D f p d s q Hst Hf Hd Hs Hp Hq N). lra. }
    pose proof (X 1%Z ltac:(auto)) as X1. pose proof (X (-1)%Z ltac:(auto)) as X2. cbn [Z.opp] in X1, X2. lra.
  - unfold L. rewrite !lap_entry by (auto; congruence). replace (f =? g)%Z with false by lia. replace (g =? f)%Z with false by lia. lra.
Qed.

(** * Rows away from the boundary *)
Lemma createLaplacian_ok m D types values h0 B0 : mfacts m D -> bc_fits m types -> boundary_after m D types values h0 B0 ->
  createLaplacian m D B0 = Ok (op_of m D types values (lap_rows m D) h0).
Proof. intros F Hb HB. unfold createLaplacian. apply assemble; auto. intros r Hr. now apply laplacian_rank_ok. Qed.
Lemma createDivergence_ok m D types values nrm h0 B0 : mfacts m D -> bc_fits m types -> boundary_after m D types values h0 B0 ->
  createDivergence m D B0 nrm = Ok (op_of m D types values (div_rows m D nrm) h0).
Proof. intros F Hb HB. unfold createDivergence. apply assemble; auto. intros r Hr. now apply divergence_rank_ok. Qed.

Lemma delta_sum n c x : (0 <= c < n)%Z -> zsum (fun k => delta k c * x k) 0 n = x c.
Proof.
  intros Hc. unfold zsum. rewrite (sumR_single _ _ c); [|apply zrange_NoDup|now apply zrange_In|].
  - unfold delta. rewrite Z.eqb_refl. lra.
  - intros k _ Hk. unfold delta. match goal with |- context[(?a =? ?b)%Z] => destruct (Z.eqb_spec a b) end; [congruence|lra].
Qed.

Lemma lap_inner_row m D types values h0 f p x u : mfacts m D -> bc_fits m types -> has_ics h0 -> periodic_min m 3 ->
  (0 <= f < m_dim m)%Z -> inner_point m f p ->
  (forall id g q, nthZ (packed_layout (m_dim m) D) id = Some (g, q) -> u g q = x id) ->
  mat_mult (op_log (op_of m D types values (lap_rows m D) h0)) (n_velocity m) x (idx m D f p) = laplacian_at m f u p.
Proof.
  intros F Hb Hics Hmin Hf [Hp Hin] Hx. pose proof (mf_dim _ _ F) as Hdim.
  destruct (owner_exists D (m_n m f) f p) as (r & Hr & Hpl); auto. { apply (mf_dec _ _ F); auto. }
  assert (Hrow : In (idx m D f p, lap_items m D f p) (lap_rows m D r)).
  { unfold lap_rows. apply in_flat_map. exists f. split; [now apply zrange_In|]. apply in_map_iff. exists p. auto. }
  assert (Hi : forall d s, (0 <= d < m_dim m)%Z -> (s = 1 \/ s = -1)%Z -> interior (m_n m f) (shift p d s)).
  { intros d s Hd Hs. rewrite interior_pc in *. intros e He. rewrite pc_shift by lia. specialize (Hp e He).
    destruct (Z.eqb_spec e d) as [->|]; [|auto]. specialize (Hin d Hd). destruct Hs as [->| ->]; lia. }
  assert (HX : forall q, interior (m_n m f) q -> x (idx m D f q) = u f q).
  { intros q Hq. symmetry. apply Hx. apply idx_spec; auto. }
  assert (E : mat_mult (op_log (op_of m D types values (lap_rows m D) h0)) (n_velocity m) x (idx m D f p)
     = sumR (fun it => it_val it * x (it_col it)) (lap_items m D f p)).
  { unfold mat_mult. rewrite (zsum_ext _ (fun c => sumR (fun it => it_val it * (delta c (it_col it) * x c)) (lap_items m D f p))).
    - unfold zsum. rewrite sumR_swap. apply sumR_ext. intros it Hit. rewrite sumR_scal. f_equal.
      change (zsum (fun k => delta k (it_col it) * x k) 0 (n_velocity m) = x (it_col it)). apply delta_sum.
      unfold lap_items, lap_offs in Hit. destruct Hit as [<-|Hit]; [now apply idx_range|].
      apply in_flat_map in Hit. destruct Hit as (d & Hd & Hit). apply zrange_In in Hd. destruct Hit as [<-|[<-|[]]]; cbn [it_col]; apply idx_range; auto.
    - intros c Hc. rewrite (op_entry m D types values (lap_rows m D) h0 r _ _ _ F Hb Hics (vrows_NoDup m D (lap_items m D) F)
        ltac:(intros; now apply (lap_HI m D r0)) ltac:(intros; now apply lap_HK) Hr Hrow Hc).
      rewrite (Rmult_comm _ (x c)), <- sumR_scal. apply sumR_ext. intros it Hit.
      assert (Hpos : (0 <= it_col it)%Z).
      { unfold lap_items, lap_offs in Hit. destruct Hit as [<-|Hit]; [cbn; pose proof (idx_range m D f p F Hf Hp); lia|].
        apply in_flat_map in Hit. destruct Hit as (d & Hd & Hit). apply zrange_In in Hd.
        destruct Hit as [<-|[<-|[]]]; cbn [it_col];
          [pose proof (idx_range m D f _ F Hf (Hi d (-1)%Z Hd ltac:(auto))) | pose proof (idx_range m D f _ F Hf (Hi d 1%Z Hd ltac:(auto)))]; lia. }
      replace (0 <=? it_col it)%Z with true by lia. lra. }
  rewrite E. unfold lap_items. cbn [sumR it_val it_col]. rewrite HX by auto. unfold lap_offs. rewrite !sumR_flat_map. cbn [sumR it_val it_col].
  unfold laplacian_at, zsum. rewrite Ropp_mult_distr_l_reverse, (Rmult_comm (sumR _ _)), <- sumR_scal, <- sumR_opp, <- sumR_plus. apply sumR_ext.
  intros d Hd. apply zrange_In in Hd. rewrite !HX by auto. unfold second_difference, lapm, lapp, shift.
  assert (Ep : setc p d (pc p d) = p) by (apply pt_ext; intros e He; rewrite pc_setc by lia; destruct (Z.eqb_spec e d) as [->|]; reflexivity).
  rewrite Ep. replace (pc p d + -1)%Z with (pc p d - 1)%Z by lia.
  rewrite interior_pc in Hp. specialize (Hp d ltac:(lia)).
  pose proof (mf_incr _ _ F f d (pc p d) (pc p d + 1)%Z Hf Hd ltac:(lia) ltac:(lia) ltac:(lia)).
  pose proof (mf_incr _ _ F f d (pc p d - 1)%Z (pc p d) Hf Hd ltac:(lia) ltac:(lia) ltac:(lia)).
  destruct (mf_wid _ _ F f d (pc p d) Hf Hd ltac:(lia)) as [_ W]. field. repeat split; lra.
Qed.
