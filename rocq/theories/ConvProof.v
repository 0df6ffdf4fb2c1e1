(** Lemmas about the convection operator. *)
From Coq Require Import Permutation ZifyBool.
From Verif Require Import Prelude ZSum RSum TypesModel GridModel GridSpec GridProof MeshProof
  IndexModel IndexSpec IndexProof BoundaryModel BoundarySpec BoundaryProof OperatorModel OperatorSpec OperatorProof BStateProof
  MatModel AdjProof ConvModel ConvSpec.
Local Open Scope R_scope.

(** * Local boxes of different components *)
Section Split.
Local Open Scope Z_scope.
Lemma split_start M m q : 1 <= m -> 0 <= M -> 0 <= q <= m ->
  isum (dmda_l M m) 0 q = q * (M / m) + Z.min q (M mod m).
Proof.
  intros Hm HM Hq. assert (Hq0 : 0 <= q) by lia. revert Hq. pattern q. apply (zind_up _ 0); auto.
  - intros _. rewrite isum_nil by lia. pose proof (Z.mod_pos_bound M m ltac:(lia)). lia.
  - intros b Hb IH Hb2. rewrite isum_snoc by lia. rewrite IH by lia. unfold dmda_l.
    destruct (Z.gtb_spec (M mod m) b); lia.
Qed.
Lemma split_next M m q : 1 <= m -> 0 <= M -> 0 <= q <= m ->
  isum (dmda_l M m) 0 q <= isum (dmda_l (M + 1) m) 0 q <= isum (dmda_l M m) 0 q + 1.
Proof.
  intros Hm HM Hq. rewrite !split_start by lia.
  pose proof (Z.mod_pos_bound M m ltac:(lia)) as B. pose proof (Z.div_mod M m ltac:(lia)) as E.
  destruct (Z.eq_dec (M mod m) (m - 1)) as [L|L].
  - destruct (div_mod_unique2 (M + 1) m (M / m + 1) 0 ltac:(lia) ltac:(lia) ltac:(nia)) as [-> ->]. nia.
  - destruct (div_mod_unique2 (M + 1) m (M / m) (M mod m + 1) ltac:(lia) ltac:(lia) ltac:(nia)) as [-> ->]. nia.
Qed.

Lemma rcoord_range D d r : (forall e, 0 <= e < 3 -> 1 <= ds_np D e) -> 0 <= d < 3 -> 0 <= r < nranks D -> 0 <= rcoord D d r < ds_np D d.
Proof.
  intros H Hd Hr. pose proof (H 0 ltac:(lia)). pose proof (H 1 ltac:(lia)). pose proof (H 2 ltac:(lia)). unfold nranks in Hr. unfold rcoord.
  destruct (pt_cases d Hd) as [->|[->| ->]]; cbn [Z.eqb Pos.eqb].
  - apply Z.mod_pos_bound. lia.
  - apply Z.mod_pos_bound. lia.
  - split; [apply Z.div_pos; nia|]. apply Z.div_lt_upper_bound; nia.
Qed.

(** The box of another component in a direction where it has as many points, or
    one more. *)
Lemma box_next m D f g e r : mfacts m D -> (0 <= f < m_dim m \/ f = 3) -> (0 <= g < m_dim m \/ g = 3) -> 0 <= e < 3 -> 0 <= r < nranks D ->
  m_n m f e <= m_n m g e <= m_n m f e + 1 ->
  d_bg D f e r <= d_bg D g e r <= d_bg D f e r + 1 /\ d_ed D f e r <= d_ed D g e r <= d_ed D f e r + 1.
Proof.
  intros F Hf Hg He Hr Hn.
  assert (Hnp : forall e, 0 <= e < 3 -> 1 <= ds_np D e) by (intros e0 He0; pose proof (mf_np _ _ F f e0 Hf He0); lia).
  pose proof (rcoord_range D e r Hnp He Hr) as Hc. pose proof (mf_np _ _ F f e Hf He) as Nf. pose proof (mf_np _ _ F g e Hg He) as Ng.
  assert (E : forall h q, (0 <= h < m_dim m \/ h = 3) -> 0 <= q <= ds_np D e -> isum (ds_l D h e) 0 q = isum (dmda_l (m_n m h e) (ds_np D e)) 0 q).
  { intros h q Hh Hq. apply isum_ext. intros i Hi. apply (mf_split _ _ F); auto. }
  assert (Ed : forall h, d_ed D h e r = isum (ds_l D h e) 0 (rcoord D e r + 1)).
  { intros h. unfold d_ed, d_bg, d_m. rewrite isum_snoc by lia. reflexivity. }
  rewrite !Ed. unfold d_bg. rewrite !E by (auto; lia).
  destruct (Z.eq_dec (m_n m g e) (m_n m f e)) as [->|Hne]; [lia|]. replace (m_n m g e) with (m_n m f e + 1) by lia.
  split; apply split_next; lia.
Qed.
End Split.

(** * Filling the arrays *)
Lemma nthZ_wr {A} (l l' : list A) i x j : wr l i x = Ok l' -> nthZ l' j = if (j =? i)%Z then Some x else nthZ l j.
Proof.
  unfold wr. destruct ((0 <=? i) && (i <? lenZ l))%Z eqn:E; [|discriminate]. intros H. injection H as <-. unfold lenZ in E. unfold nthZ.
  destruct (Z.ltb_spec j 0) as [Hj|Hj]; [replace (j =? i)%Z with false by lia; reflexivity|].
  destruct (Z.eqb_spec j i) as [->|Hne]; [apply nth_error_upd_nat_same; lia|]. apply nth_error_upd_nat_other. lia.
Qed.
Lemma lenZ_wr {A} (l l' : list A) i x : wr l i x = Ok l' -> lenZ l' = lenZ l.
Proof.
  unfold wr. destruct ((0 <=? i) && (i <? lenZ l))%Z eqn:E; [|discriminate]. intros H. injection H as <-. unfold lenZ. now rewrite upd_nat_length.
Qed.
Lemma wr_ok {A} (l : list A) i x : (0 <= i < lenZ l)%Z -> exists l', wr l i x = Ok l'.
Proof. intros H. unfold wr. replace ((0 <=? i) && (i <? lenZ l))%Z with true by lia. eauto. Qed.

Lemma foldM_wr {A} (f : A -> Z) (g : A -> R) l : forall a, (forall kp, In kp l -> (0 <= f kp < lenZ a)%Z) ->
  exists a', foldM (fun a kp => wr a (f kp) (g kp)) l a = Ok a' /\ lenZ a' = lenZ a /\
    (forall id, (forall kp, In kp l -> f kp <> id) -> nthZ a' id = nthZ a id) /\
    (NoDup (map f l) -> forall kp, In kp l -> nthZ a' (f kp) = Some (g kp)).
Proof.
  induction l as [|k t IH]; intros a H.
  - exists a. repeat split; auto. intros _ kp [].
  - cbn [foldM]. destruct (wr_ok a (f k) (g k) (H k (or_introl eq_refl))) as [a1 E1]. rewrite E1. cbn [bind].
    pose proof (lenZ_wr _ _ _ _ E1) as L1.
    destruct (IH a1) as (a' & E' & L' & O' & S'). { intros kp Hk. rewrite L1. apply H. now right. }
    exists a'. split; [exact E'|]. split; [congruence|]. split.
    + intros id Hid. rewrite O' by (intros; apply Hid; now right). rewrite (nthZ_wr _ _ _ _ id E1).
      pose proof (Hid k (or_introl eq_refl)). replace (id =? f k)%Z with false by lia. reflexivity.
    + intros Hnd kp [->|Hk].
      * inversion Hnd as [|x y Hx Hy Exy]; subst. rewrite O'.
        -- rewrite (nthZ_wr _ _ _ _ _ E1). now rewrite Z.eqb_refl.
        -- intros kp' Hk' Eq. apply Hx. rewrite <- Eq. now apply in_map.
      * inversion Hnd; subst. now apply S'.
Qed.

Lemma pos_eqb_spec a b : pos_eqb a b = true <-> a = b.
Proof.
  destruct a as (f & [[i j] k]), b as (f' & [[i' j'] k']). unfold pos_eqb. rewrite !andb_true_iff, !Z.eqb_eq.
  split; [intros (((-> & ->) & ->) & ->); reflexivity|intros H; injection H; intros; subst; auto].
Qed.
Lemma findpos_idx m D f p : mfacts m D -> (0 <= f < m_dim m)%Z -> interior (m_n m f) p ->
  findpos pos_eqb (f, p) (packed_layout (m_dim m) D) 0 = Some (idx m D f p).
Proof.
  intros F Hf Hp. destruct (idx_spec m D f p F Hf Hp) as [_ A].
  destruct (findpos_In pos_eqb pos_eqb_spec (f, p) _ 0%Z (nthZ_In _ _ _ A)) as [i E]. rewrite E. f_equal.
  destruct (findpos_Some pos_eqb pos_eqb_spec _ _ _ _ E) as [_ B]. rewrite Z.sub_0_r in B.
  assert (DA : dec_all (m_dim m) D (m_n m)) by (intros g Hg; apply (mf_dec _ _ F); auto).
  eapply nthZ_NoDup_inj; [|exact B|exact A]. eapply packed_layout_NoDup; eauto; apply (mf_dim _ _ F).
Qed.

Lemma nthZ_combine_range {A} (l : list A) i : nthZ (combine (zrange 0 (lenZ l)) l) i = option_map (fun x => (i, x)) (nthZ l i).
Proof.
  assert (G : forall (l : list A) k i, nthZ (combine (zrange k (k + lenZ l)) l) i = option_map (fun x => ((k + i)%Z, x)) (nthZ l i)).
  { clear. induction l as [|x t IH]; intros k i.
    - rewrite (proj2 (nthZ_None ([] : list A) i)) by (unfold lenZ; cbn; lia). cbn [lenZ length]. replace (zrange k (k + lenZ [])) with (@nil Z) by (symmetry; apply zrange_nil; unfold lenZ; cbn; lia).
      cbn [combine option_map]. apply nthZ_None. unfold lenZ; cbn; lia.
    - pose proof (lenZ_nonneg t). rewrite lenZ_cons. rewrite zrange_cons by lia. cbn [combine].
      destruct (Z.ltb_spec i 0) as [Hi|Hi].
      + rewrite !(proj2 (nthZ_None _ _)) by (left; lia). reflexivity.
      + destruct (Z.eq_dec i 0) as [->|Hne]; [rewrite !nthZ_cons_0; cbn [option_map]; repeat f_equal; lia|].
        rewrite !nthZ_cons_pos by lia. replace (k + (1 + lenZ t))%Z with (k + 1 + lenZ t)%Z by lia. rewrite IH. replace (k + 1 + (i - 1))%Z with (k + i)%Z by lia. reflexivity. }
  specialize (G l 0%Z i). rewrite Z.add_0_l in G. rewrite G. replace (0 + i)%Z with i by lia. reflexivity.
Qed.

(** The periodic directions of the arrays. *)
Definition diag_per (m : mesh) : Prop := forall d, (0 <= d < m_dim m)%Z -> m_periodic m d d = periodic_dir m d.
Lemma setup_diag m D : mesh_setup m D -> diag_per m.
Proof.
  intros (mn & mx & per & w & np & Hg & Hm & Hper & _) d Hd. unfold periodic_dir.
  assert (E : m_periodic m = per).
  { unfold createMeshArrays in Hm. destruct (forallb _ _) eqn:Ef; [|discriminate]. injection Hm as Em. rewrite <- Em. reflexivity. }
  rewrite E. apply Hper; lia.
Qed.

Lemma ghosted_frame m D f r q : mfacts m D -> (0 <= f < m_dim m)%Z -> (0 <= r < nranks D)%Z ->
  In q (ghosted_points (m_dim m) D f r) -> in_frame (m_n m f) q /\ (m_dim m = 2%Z -> pc q 2 = 0%Z).
Proof.
  intros F Hf Hr Hin. pose proof (mf_dim _ _ F) as Hd. pose proof (mf_dec _ _ F f (or_introl Hf)) as Hdec.
  rewrite ghosted_points_pc in Hin by auto. split.
  - apply in_frame_pc. intros d Hdd. specialize (Hin d Hdd). pose proof (d_range D (m_n m f) f d r Hdec Hdd Hr).
    destruct (d <? m_dim m)%Z; lia.
  - intros E. specialize (Hin 2%Z ltac:(lia)). rewrite E in Hin. cbn in Hin.
    pose proof (d_range D (m_n m f) f 2%Z r Hdec ltac:(lia) Hr). destruct (mf_flat _ _ F f (or_introl Hf) E) as [X _]. lia.
Qed.
Lemma has_image_diag m D f r q : mfacts m D -> diag_per m -> (0 <= f < m_dim m)%Z -> (0 <= r < nranks D)%Z ->
  In q (ghosted_points (m_dim m) D f r) ->
  has_image (m_n m f) (fun d => m_periodic m d d) q = has_image (m_n m f) (periodic_dir m) q.
Proof.
  intros F Hp Hf Hr Hin. destruct (ghosted_frame _ _ _ _ _ F Hf Hr Hin) as [Hfr H2]. pose proof (mf_dim _ _ F) as Hd.
  assert (X : forall d, (0 <= d < 3)%Z -> outside (m_n m f d) (pc q d) = true -> m_periodic m d d = periodic_dir m d).
  { intros d Hdd Ho. destruct (Z.ltb_spec d (m_dim m)); [apply Hp; lia|]. assert (d = 2 /\ m_dim m = 2)%Z as [-> E] by lia.
    rewrite (H2 E) in Ho. destruct (mf_flat _ _ F f (or_introl Hf) E) as [X _]. rewrite X in Ho. discriminate. }
  apply eq_true_iff_eq. rewrite !has_image_pc. split; intros H d Hdd Ho; [rewrite <- X by auto|rewrite X by auto]; auto.
Qed.
Lemma image_in m D f q : mfacts m D -> (0 <= f < m_dim m)%Z -> interior (m_n m f) (image (m_n m f) q).
Proof.
  intros F Hf. apply interior_pc. intros d Hd. rewrite pc_image by auto. unfold wrap. apply Z.mod_pos_bound.
  pose proof (sizes_pos m D f d F (or_introl Hf) Hd). lia.
Qed.

(** Value written by the scatter at an entry. *)
Lemma scatter_ok m D x r f old : mfacts m D -> diag_per m -> (0 <= f < m_dim m)%Z -> (0 <= r < nranks D)%Z ->
  lenZ old = lenZ (ghosted_points (m_dim m) D f r) ->
  exists a, scatter m D x r f old = Ok a /\ lenZ a = lenZ old /\
    forall id q, nthZ (ghosted_points (m_dim m) D f r) id = Some q ->
      nthZ a id = if has_image (m_n m f) (periodic_dir m) q then Some (x (idx m D f (image (m_n m f) q))) else nthZ old id.
Proof.
  intros F Hp Hf Hr HL. unfold scatter. set (gp := ghosted_points (m_dim m) D f r) in *.
  set (g := fun iq : Z * pt => if has_image (m_n m f) (periodic_dir m) (snd iq) then x (idx m D f (image (m_n m f) (snd iq)))
                               else match nthZ old (fst iq) with Some v => v | None => 0 end).
  exists (map g (combine (zrange 0 (lenZ gp)) gp)). split; [|split].
  - apply mapM_ok. intros [id q] Hin.
    assert (Hn : nthZ gp id = Some q).
    { apply In_nthZ in Hin. destruct Hin as (i & _ & Hi). rewrite nthZ_combine_range in Hi. change (Z * Z * Z)%type with pt in Hi. destruct (nthZ gp i) as [q0|] eqn:E; cbn [option_map] in Hi; [|discriminate Hi]. injection Hi as <- <-. exact E. }
    rewrite (has_image_diag m D f r q F Hp Hf Hr (nthZ_In _ _ _ Hn)). unfold g. cbn [fst snd].
    destruct (has_image _ _ q) eqn:Ei.
    + rewrite findpos_idx by (auto; eapply image_in; eauto). reflexivity.
    + unfold rd. destruct (nthZ old id) eqn:Eo; [reflexivity|]. apply nthZ_None in Eo. pose proof (nthZ_Some_range _ _ _ Hn). lia.
  - rewrite lenZ_map. unfold lenZ. rewrite combine_length, zrange_length. unfold lenZ in HL. pose proof (lenZ_nonneg gp). unfold lenZ. lia.
  - intros id q Hn. rewrite nthZ_map, nthZ_combine_range, Hn. cbn [option_map]. unfold g. cbn [fst snd].
    destruct (has_image _ _ q); [reflexivity|]. destruct (nthZ old id) eqn:Eo; [reflexivity|]. apply nthZ_None in Eo. pose proof (nthZ_Some_range _ _ _ Hn). lia.
Qed.

Lemma NoDup_parts {A} (l1 l2 : list A) : NoDup (l1 ++ l2) -> NoDup l1 /\ NoDup l2.
Proof.
  induction l1 as [|x t IH]; intros H; [split; [constructor|exact H]|]. cbn in H. inversion H as [|a b Ha Hb E]; subst. destruct (IH Hb) as [A1 A2].
  split; auto. constructor; auto. intros Hi. apply Ha. apply in_app_iff. auto.
Qed.
Lemma geom_lcl p q : geom p = geom q -> gi_lcl p = gi_lcl q.
Proof. unfold geom. congruence. Qed.
(** The boundary points of component f. *)
Definition fpts m D types values hist r f : list (stencil * ginfo) :=
  flat_map (fun loc => sb_points (sb_after (bsb m D types values r f loc) hist)) (zrange 0 (m_dim m * 2)).
Lemma fpts_In m D types values hist r f kp : (0 <= f < m_dim m)%Z ->
  In kp (fpts m D types values hist r f) <-> In (f, kp) (bpts m D types values hist r).
Proof.
  intros Hf. unfold fpts, bpts. rewrite in_flat_map. split.
  - intros (loc & Hl & Hin). apply in_flat_map. exists f. split; [now apply zrange_In|]. apply in_flat_map. exists loc. split; auto. now apply in_map.
  - intros H. apply in_flat_map in H. destruct H as (g & Hg & H). apply in_flat_map in H. destruct H as (loc & Hl & H). apply in_map_iff in H.
    destruct H as (kp' & E & H). injection E as -> ->. eauto.
Qed.
Lemma fpts_info m D types values hist r f s info : mfacts m D -> (0 <= r < nranks D)%Z -> (0 <= f < m_dim m)%Z ->
  In (s, info) (fpts m D types values hist r f) ->
  exists loc q, (0 <= loc < m_dim m * 2)%Z /\ s = st_of q /\ types f loc <> PERIODIC /\ is_ghost (m_n m f) loc q /\
    In (inner_of (m_n m f) loc q) (local_points D f r) /\
    nthZ (ghosted_points (m_dim m) D f r) (gi_lcl info) = Some q.
Proof.
  intros F Hr Hf Hin. apply fpts_In in Hin; auto. destruct (bpts_In _ _ _ _ _ _ _ _ _ F Hr Hin) as (loc & q & p & _ & Hl & -> & Ht & Hp & ->).
  exists loc, q. destruct (gl_points_info m D r f loc q p F Hf Hl Hr Hp) as (_ & _ & _ & L & N & _).
  assert (G := proj1 (gl_points_In m D r f loc q F Hf Hl Hr)). destruct G as [G _]; [apply in_map_iff; exists (st_of q, p); auto|].
  split; [exact Hl|]. split; [reflexivity|]. split; [exact Ht|]. split; [exact G|]. split; [exact L|]. rewrite (geom_lcl _ _ (psteps_geom _ _ _)). exact N.
Qed.
Lemma st_of_inj p q : st_of p = st_of q -> p = q.
Proof. destruct p as [[i j] k], q as [[i' j'] k']. cbn. intros H. injection H. intros; subst; reflexivity. Qed.
Lemma fpts_lcl_NoDup m D types values hist r f : mfacts m D -> (0 <= r < nranks D)%Z -> (0 <= f < m_dim m)%Z ->
  NoDup (map (fun kp => gi_lcl (snd kp)) (fpts m D types values hist r f)).
Proof.
  intros F Hr Hf.
  assert (ND : NoDup (map fst (fpts m D types values hist r f))).
  { pose proof (bpts_NoDup m D types values hist r F Hr) as B. unfold bpts in B.
    assert (Z : exists l1 l2, zrange 0 (m_dim m) = l1 ++ f :: l2).
    { apply in_split. now apply zrange_In. } destruct Z as (l1 & l2 & Z). rewrite Z in B.
    rewrite flat_map_app in B. cbn [flat_map] in B. rewrite map_app, map_app in B. apply NoDup_parts in B. destruct B as [_ B]. apply NoDup_parts in B. destruct B as [B _].
    assert (E : flat_map (fun loc => map (fun kp => (f, kp)) (sb_points (sb_after (bsb m D types values r f loc) hist))) (zrange 0 (m_dim m * 2))
              = map (fun kp => (f, kp)) (fpts m D types values hist r f)).
    { unfold fpts. rewrite !flat_map_concat_map, concat_map, map_map. reflexivity. }
    rewrite E, map_map in B. cbn [fst snd] in B. rewrite <- (map_map fst (fun s => (f, s))) in B. eapply NoDup_map_inv; eauto. }
  assert (G : forall l, (forall kp, In kp l -> In kp (fpts m D types values hist r f)) -> NoDup (map fst l) -> NoDup (map (fun kp : stencil * ginfo => gi_lcl (snd kp)) l)).
  { induction l as [|[s i] t IH]; intros Hs Hn; [constructor|]. cbn [map] in *. inversion Hn as [|a b Ha Hb Eab]; subst. constructor; [|apply IH; auto; intros; apply Hs; now right].
    intros Hi. apply in_map_iff in Hi. destruct Hi as ([s' i'] & E & Hi). cbn [snd fst] in *.
    destruct (fpts_info _ _ _ _ _ _ _ _ _ F Hr Hf (Hs _ (or_introl eq_refl))) as (l1 & q1 & _ & -> & _ & _ & _ & N1).
    destruct (fpts_info _ _ _ _ _ _ _ _ _ F Hr Hf (Hs _ (or_intror Hi))) as (l2 & q2 & _ & -> & _ & _ & _ & N2).
    rewrite E in N2. rewrite N1 in N2. injection N2 as <-. apply Ha. apply in_map_iff. exists (st_of q1, i'). auto. }
  apply G; auto.
Qed.

Lemma row_foldM row a : foldM copyValues2LocalVec row a =
  foldM (fun a kp => wr a (gi_lcl (snd kp)) (gi_value (snd kp))) (flat_map sb_points row) a.
Proof.
  revert a. induction row as [|sb t IH]; intros a; [reflexivity|]. cbn [foldM flat_map]. rewrite foldM_app. unfold copyValues2LocalVec at 1.
  destruct (foldM _ (sb_points sb) a); cbn [bind]; auto.
Qed.

Definition shape_ok (m : mesh) (D : dec) (r : Z) (q : list (list R)) : Prop :=
  forall f, (0 <= f < m_dim m)%Z -> exists a, nthZ q f = Some a /\ lenZ a = lenZ (ghosted_points (m_dim m) D f r).

Lemma fill_ok m D types values hist B x r q : mfacts m D -> diag_per m -> bc_fits m types -> (0 <= r < nranks D)%Z ->
  boundary_after m D types values hist B -> shape_ok m D r q ->
  exists q', fill m D B x r q = Ok q' /\ shape_ok m D r q' /\
    forall f p id, (0 <= f < m_dim m)%Z -> nthZ (ghosted_points (m_dim m) D f r) id = Some p ->
      exists a old v, nthZ q' f = Some a /\ nthZ q f = Some old /\ nthZ a id = Some v /\
      (has_image (m_n m f) (periodic_dir m) p = true -> v = x (idx m D f (image (m_n m f) p))) /\
      (forall info, In (st_of p, info) (fpts m D types values hist r f) -> v = gi_value info) /\
      (has_image (m_n m f) (periodic_dir m) p = false -> (forall info, ~ In (st_of p, info) (fpts m D types values hist r f)) -> nthZ old id = Some v).
Proof.
  intros F Hdp Hb Hr HB Hs. unfold fill.
  assert (Hex : forall f, exists a, (0 <= f < m_dim m)%Z ->
     (do old <- rd q f; do a <- scatter m D x r f old; do row <- rd (B r) f; foldM copyValues2LocalVec row a) = Ok a /\
     lenZ a = lenZ (ghosted_points (m_dim m) D f r) /\
     forall p id, nthZ (ghosted_points (m_dim m) D f r) id = Some p ->
      exists old v, nthZ q f = Some old /\ nthZ a id = Some v /\
      (has_image (m_n m f) (periodic_dir m) p = true -> v = x (idx m D f (image (m_n m f) p))) /\
      (forall info, In (st_of p, info) (fpts m D types values hist r f) -> v = gi_value info) /\
      (has_image (m_n m f) (periodic_dir m) p = false -> (forall info, ~ In (st_of p, info) (fpts m D types values hist r f)) -> nthZ old id = Some v)).
  { intros f. destruct (Z.leb_spec 0 f); [|exists []; intros; lia]. destruct (Z.ltb_spec f (m_dim m)); [|exists []; intros; lia].
    assert (Hf : (0 <= f < m_dim m)%Z) by lia.
    destruct (Hs f Hf) as (old & Eo & Lo). destruct (scatter_ok m D x r f old F Hdp Hf Hr Lo) as (a1 & E1 & L1 & V1).
    pose proof (after_pure _ _ _ _ _ _ _ F Hb HB Hr) as EB.
    assert (Erow : nthZ (B r) f = Some (map (fun loc => sb_after (bsb m D types values r f loc) hist) (zrange 0 (m_dim m * 2)))).
    { rewrite EB. unfold pure_state. rewrite nthZ_map, nthZ_zrange by lia. cbn [option_map]. replace (0 + f)%Z with f by lia. reflexivity. }
    assert (Ef : flat_map sb_points (map (fun loc => sb_after (bsb m D types values r f loc) hist) (zrange 0 (m_dim m * 2))) = fpts m D types values hist r f).
    { unfold fpts. rewrite !flat_map_concat_map, map_map. reflexivity. }
    destruct (foldM_wr (fun kp : stencil * ginfo => gi_lcl (snd kp)) (fun kp => gi_value (snd kp)) (fpts m D types values hist r f) a1) as (a & E & L & O' & S').
    { intros [s info] Hin. destruct (fpts_info _ _ _ _ _ _ _ _ _ F Hr Hf Hin) as (l1 & q1 & _ & _ & _ & _ & _ & N1). cbn [snd].
      rewrite L1, Lo. eapply nthZ_Some_range; eauto. }
    specialize (S' (fpts_lcl_NoDup _ _ _ _ _ _ _ F Hr Hf)).
    exists a. intros _. split; [|split].
    - unfold rd at 1. rewrite Eo. cbn [bind]. rewrite E1. cbn [bind]. unfold rd. rewrite Erow. cbn [bind]. rewrite row_foldM, Ef. exact E.
    - lia.
    - intros p id Hp. exists old.
      assert (Hpos : forall info, In (st_of p, info) (fpts m D types values hist r f) -> gi_lcl info = id).
      { intros info Hin. destruct (fpts_info _ _ _ _ _ _ _ _ _ F Hr Hf Hin) as (l1 & q1 & _ & Eq & _ & _ & _ & N1). apply st_of_inj in Eq. subst q1.
        eapply nthZ_NoDup_inj; [|exact N1|exact Hp]. apply box_NoDup. }
      assert (Hoth : forall s info, In (s, info) (fpts m D types values hist r f) -> gi_lcl info = id -> s = st_of p).
      { intros s info Hin Ei. destruct (fpts_info _ _ _ _ _ _ _ _ _ F Hr Hf Hin) as (l1 & q1 & _ & -> & _ & _ & _ & N1). rewrite Ei, Hp in N1. congruence. }
      destruct (in_dec Z.eq_dec id (map (fun kp : stencil * ginfo => gi_lcl (snd kp)) (fpts m D types values hist r f))) as [Hi|Hi].
      + apply in_map_iff in Hi. destruct Hi as ([s info] & Ei & Hin). cbn [snd] in Ei. pose proof (Hoth _ _ Hin Ei). subst s.
        exists (gi_value info). split; [exact Eo|]. split; [rewrite <- Ei; exact (S' _ Hin)|]. split; [|split].
        * intros Him. exfalso. destruct (fpts_info _ _ _ _ _ _ _ _ _ F Hr Hf Hin) as (l1 & q1 & Hl1 & Eq & Ht & G & _). apply st_of_inj in Eq. subst q1.
          destruct (Hb f l1 Hf Hl1) as [_ Hper]. pose proof (loc_dir_range _ _ Hl1) as Hd1. pose proof (mf_dim _ _ F).
          rewrite has_image_pc in Him. apply Ht. apply Hper. apply Him; [lia|]. destruct G as [G _]. rewrite G. unfold ghost_layer, outside. destruct (_ =? 0)%Z; lia.
        * intros info' Hin'. pose proof (S' _ Hin') as X. cbn [snd] in X. rewrite (Hpos _ Hin') in X. pose proof (S' _ Hin) as Y. cbn [snd] in Y. rewrite Ei in Y. congruence.
        * intros _ Hno. exfalso. eapply Hno; eauto.
      + assert (Hn : nthZ a id = nthZ a1 id). { apply O'. intros kp Hk Ei. apply Hi. apply in_map_iff. eauto. }
        pose proof (V1 id p Hp) as V. destruct (has_image (m_n m f) (periodic_dir m) p) eqn:Him.
        * eexists. split; [exact Eo|]. split; [rewrite Hn; exact V|]. split; [reflexivity|]. split; [|discriminate].
          intros info Hin. exfalso. apply Hi. apply in_map_iff. exists (st_of p, info). split; [cbn [snd]; now apply Hpos|exact Hin].
        * pose proof (nthZ_Some_range _ _ _ Hp) as Hrg. destruct (nthZ_in_range old id ltac:(lia)) as [v Ev]. exists v.
          split; [exact Eo|]. split; [congruence|]. split; [discriminate|]. split; [|auto].
          intros info Hin. exfalso. apply Hi. apply in_map_iff. exists (st_of p, info). split; [cbn [snd]; now apply Hpos|exact Hin]. }
  assert (Hm : exists q', mapM (fun f => do old <- rd q f; do a <- scatter m D x r f old; do row <- rd (B r) f; foldM copyValues2LocalVec row a) (zrange 0 (m_dim m)) = Ok q' /\
     forall f, (0 <= f < m_dim m)%Z -> exists a, nthZ q' f = Some a /\
       (do old <- rd q f; do a <- scatter m D x r f old; do row <- rd (B r) f; foldM copyValues2LocalVec row a) = Ok a).
  { set (G := fun f => (do old <- rd q f; do a <- scatter m D x r f old; do row <- rd (B r) f; foldM copyValues2LocalVec row a)) in *.
    exists (map (fun f => ok_or [] (G f)) (zrange 0 (m_dim m))). split.
    - apply mapM_ok. intros f Hf. apply zrange_In in Hf. destruct (Hex f) as [a Ha]. destruct (Ha Hf) as [E _]. unfold G. rewrite E. reflexivity.
    - intros f Hf. destruct (Hex f) as [a Ha]. destruct (Ha Hf) as [E _]. exists a. split; [|exact E].
      rewrite nthZ_map, nthZ_zrange by lia. cbn [option_map]. replace (0 + f)%Z with f by lia. unfold G. rewrite E. reflexivity. }
  destruct Hm as (q' & E & Hq'). exists q'. split; [exact E|]. split.
  - intros f Hf. destruct (Hq' f Hf) as (a & Ea & Ga). destruct (Hex f) as [a' Ha]. destruct (Ha Hf) as (E' & L' & _). exists a. split; auto. congruence.
  - intros f p id Hf Hp. destruct (Hq' f Hf) as (a & Ea & Ga). destruct (Hex f) as [a' Ha]. destruct (Ha Hf) as (E' & _ & V').
    rewrite Ga in E'. injection E' as ->. destruct (V' p id Hp) as (old & v & X1 & X2 & X3). exists a', old, v. tauto.
Qed.

(** * Kernels *)
Lemma pc_shift2 p d s e : (0 <= d < 3)%Z -> (0 <= e < 3)%Z -> pc (shift p d s) e = (if (e =? d)%Z then pc p e + s else pc p e)%Z.
Proof. intros Hd He. rewrite pc_shift by auto. destruct (Z.eqb_spec e d) as [->|]; reflexivity. Qed.

Lemma shift_back p d : shift (shift p d (-1)) d 1 = p.
Proof. destruct p as [[i j] k]. unfold shift, setc, pc. destruct (Z.eqb d 0) eqn:E; [|destruct (Z.eqb d 1) eqn:E1]; rewrite ?E, ?E1; repeat f_equal; lia. Qed.
(** Points that the kernel of component f reads at p. *)
Definition reads (dim f : Z) (p : pt) : list (Z * pt) :=
  flat_map (fun d => [(f, shift p d (-1)); (f, shift p d 1); (d, p); (d, shift p f 1); (d, shift p d (-1)); (d, shift (shift p d (-1)) f 1)])
           (zrange 0 dim).

Lemma n_next m D f d e : mfacts m D -> (0 <= f < m_dim m)%Z -> (0 <= d < m_dim m)%Z -> (0 <= e < 3)%Z -> d <> f ->
  (e <> d -> m_n m f e <= m_n m d e <= m_n m f e + 1)%Z /\ (e <> f -> m_n m d e <= m_n m f e <= m_n m d e + 1)%Z.
Proof.
  intros F Hf Hd He Hne. split; intros H.
  - destruct (Z.eq_dec e f) as [->|Hef].
    + rewrite (mf_n_oth _ _ F d f Hd He Hne). pose proof (mf_n_own _ _ F f Hf). destruct (periodic_dir m f); lia.
    + rewrite (mf_n_oth _ _ F d e Hd He ltac:(congruence)), (mf_n_oth _ _ F f e Hf He ltac:(congruence)). lia.
  - destruct (Z.eq_dec e d) as [->|Hed].
    + rewrite (mf_n_oth _ _ F f d Hf He ltac:(congruence)). pose proof (mf_n_own _ _ F d Hd). destruct (periodic_dir m d); lia.
    + rewrite (mf_n_oth _ _ F d e Hd He ltac:(congruence)), (mf_n_oth _ _ F f e Hf He ltac:(congruence)). lia.
Qed.

(** C24: everything the kernels read is in the ghosted boxes. *)
Lemma reads_in_box m D r f p g q : mfacts m D -> (0 <= r < nranks D)%Z -> (0 <= f < m_dim m)%Z ->
  In p (local_points D f r) -> In (g, q) (reads (m_dim m) f p) ->
  (0 <= g < m_dim m)%Z /\ In q (ghosted_points (m_dim m) D g r).
Proof.
  intros F Hr Hf Hp Hin. pose proof (mf_dim _ _ F) as Hdim. unfold reads in Hin. apply in_flat_map in Hin. destruct Hin as (d & Hd & Hin). apply zrange_In in Hd.
  assert (Own : forall q, (forall e, (0 <= e < 3)%Z -> if (e <? m_dim m)%Z then (pc p e - 1 <= pc q e <= pc p e + 1)%Z else pc q e = pc p e) -> In q (ghosted_points (m_dim m) D f r)).
  { intros q0 Hq. apply ghosted_points_pc; auto. intros e He. specialize (Hq e He). rewrite local_points_pc in Hp. specialize (Hp e He). destruct (e <? m_dim m)%Z; lia. }
  assert (Oth : d <> f -> forall q, (forall e, (0 <= e < 3)%Z -> (pc p e <= pc q e <= pc p e + (if (e =? f)%Z then 1 else 0) \/ (e = d /\ pc q e = pc p e - 1))%Z) -> In q (ghosted_points (m_dim m) D d r)).
  { intros Hne q0 Hq. apply ghosted_points_pc; auto. intros e He. specialize (Hq e He). rewrite local_points_pc in Hp. specialize (Hp e He).
    destruct (n_next m D f d e F Hf Hd He Hne) as [N1 N2].
    destruct (Z.eqb_spec e f) as [->|Hef].
    - destruct (box_next m D f d f r F (or_introl Hf) (or_introl Hd) He Hr (N1 ltac:(congruence))) as [A B].
      replace (f <? m_dim m)%Z with true by lia. lia.
    - destruct (Z.eq_dec e d) as [->|Hed].
      + destruct (box_next m D d f d r F (or_introl Hd) (or_introl Hf) He Hr (N2 ltac:(congruence))) as [A B].
        replace (d <? m_dim m)%Z with true by lia. lia.
      + assert (E : m_n m f e = m_n m d e) by (rewrite (mf_n_oth _ _ F d e Hd He ltac:(congruence)), (mf_n_oth _ _ F f e Hf He ltac:(congruence)); reflexivity).
        destruct (box_next m D f d e r F (or_introl Hf) (or_introl Hd) He Hr ltac:(lia)) as [A B].
        destruct (box_next m D d f e r F (or_introl Hd) (or_introl Hf) He Hr ltac:(lia)) as [A' B'].
        destruct (e <? m_dim m)%Z; lia. }
  assert (Sf : forall e, (0 <= e < 3)%Z -> e = f \/ e = d -> (e <? m_dim m)%Z = true) by (intros; lia).
  cbn [In] in Hin. destruct Hin as [E|[E|[E|[E|[E|[E|[]]]]]]]; injection E as <- <-; (split; [lia|]).
  - apply Own. intros e He. rewrite pc_shift2 by lia. destruct (Z.eqb_spec e d) as [->|]; destruct (_ <? m_dim m)%Z eqn:?; lia.
  - apply Own. intros e He. rewrite pc_shift2 by lia. destruct (Z.eqb_spec e d) as [->|]; destruct (_ <? m_dim m)%Z eqn:?; lia.
  - destruct (Z.eq_dec d f) as [->|Hne]; [apply Own; intros e He; destruct (_ <? m_dim m)%Z eqn:?; lia|].
    apply Oth; auto. intros e He. destruct (e =? f)%Z; lia.
  - destruct (Z.eq_dec d f) as [->|Hne].
    + apply Own. intros e He. rewrite pc_shift2 by lia. destruct (Z.eqb_spec e f) as [->|]; destruct (_ <? m_dim m)%Z eqn:?; lia.
    + apply Oth; auto. intros e He. rewrite pc_shift2 by lia. destruct (e =? f)%Z; lia.
  - destruct (Z.eq_dec d f) as [->|Hne].
    + apply Own. intros e He. rewrite pc_shift2 by lia. destruct (Z.eqb_spec e f) as [->|]; destruct (_ <? m_dim m)%Z eqn:?; lia.
    + apply Oth; auto. intros e He. rewrite pc_shift2 by lia. destruct (Z.eqb_spec e f), (Z.eqb_spec e d); lia.
  - destruct (Z.eq_dec d f) as [->|Hne].
    + apply Own. intros e He. rewrite !pc_shift2 by lia. destruct (Z.eqb_spec e f) as [->|]; destruct (_ <? m_dim m)%Z eqn:?; lia.
    + apply Oth; auto. intros e He. rewrite !pc_shift2 by lia. destruct (Z.eqb_spec e f), (Z.eqb_spec e d); lia.
Qed.

Lemma convection_at_ext m w w' f p : (forall g q, In (g, q) (reads (m_dim m) f p) -> w g q = w' g q) -> (0 <= f < m_dim m)%Z ->
  convection_at m w f p = convection_at m w' f p.
Proof.
  intros H Hf. unfold convection_at. apply zsum_ext. intros d Hd. unfold momentum_flux.
  assert (I : forall x, In x [(f, shift p d (-1)); (f, shift p d 1); (d, p); (d, shift p f 1); (d, shift p d (-1)); (d, shift (shift p d (-1)) f 1)] -> w (fst x) (snd x) = w' (fst x) (snd x)).
  { intros [g q] Hx. apply H. unfold reads. apply in_flat_map. exists d. split; [now apply zrange_In|exact Hx]. }
  assert (I0 : w f p = w' f p).
  { apply H. unfold reads. apply in_flat_map. exists f. split; [now apply zrange_In|]. cbn. tauto. }
  assert (Es : shift (shift p d (-1)) d 1 = p) by (apply shift_back).
  rewrite Es, I0.
  pose proof (I (f, shift p d (-1)) ltac:(cbn; tauto)) as J1. pose proof (I (f, shift p d 1) ltac:(cbn; tauto)) as J2.
  pose proof (I (d, p) ltac:(cbn; tauto)) as J3. pose proof (I (d, shift p f 1) ltac:(cbn; tauto)) as J4.
  pose proof (I (d, shift p d (-1)) ltac:(cbn; tauto)) as J5. pose proof (I (d, shift (shift p d (-1)) f 1) ltac:(cbn; tauto)) as J6.
  cbn [fst snd] in *. rewrite J1, J2, J3, J4, J5, J6. reflexivity.
Qed.

Lemma in_reads dim f p d x : (0 <= d < dim)%Z ->
  In x [(f, shift p d (-1)); (f, shift p d 1); (d, p); (d, shift p f 1); (d, shift p d (-1)); (d, shift (shift p d (-1)) f 1)] ->
  In x (reads dim f p).
Proof. intros Hd H. unfold reads. apply in_flat_map. exists d. split; [now apply zrange_In|exact H]. Qed.

Lemma kernel_value m D f p (q : flux) (w : Z -> pt -> R) : mfacts m D -> (0 <= f < m_dim m)%Z -> interior (m_n m f) p ->
  (forall g x, In (g, x) (reads (m_dim m) f p) -> let '(i, j, k) := x in q g i j k = Ok (w g x)) ->
  (let '(i, j, k) := p in kernel_of m f q i j k) = Ok (convection_at m w f p).
Proof.
  intros F Hf Hp Hq. destruct p as [[i j] k]. pose proof (mf_dim _ _ F) as Hdim.
  assert (W : forall d, (0 <= d < m_dim m)%Z -> m_dL m f d (pc (i, j, k) d) = Ok (wid m f d (pc (i, j, k) d))).
  { intros d Hd. apply (mf_wid _ _ F f d); auto. rewrite interior_pc in Hp. specialize (Hp d ltac:(lia)). lia. }
  assert (Q : forall d, (0 <= d < m_dim m)%Z -> forall g i' j' k',
    In (g, (i', j', k')) [(f, shift (i, j, k) d (-1)); (f, shift (i, j, k) d 1); (d, (i, j, k)); (d, shift (i, j, k) f 1); (d, shift (i, j, k) d (-1)); (d, shift (shift (i, j, k) d (-1)) f 1)] ->
    at_ q g i' j' k' = Ok (w g (i', j', k'))).
  { intros d Hd g i' j' k' Hi. exact (Hq g (i', j', k') (in_reads _ _ _ d _ Hd Hi)). }
  clear Hq. unfold kernel_of, convection_at, momentum_flux, zsum.
  destruct Hdim as [E|E]; rewrite E in *; cbn [Z.eqb Pos.eqb].
  - pose proof (W 0%Z ltac:(lia)) as W0. pose proof (W 1%Z ltac:(lia)) as W1.
    pose proof (Q 0%Z ltac:(lia)) as Q0. pose proof (Q 1%Z ltac:(lia)) as Q1. clear W Q.
    change (zrange 0 2) with [0%Z; 1%Z].
    assert (f = 0 \/ f = 1)%Z as [-> | ->] by lia; cbn [Z.eqb Pos.eqb sumR shift setc pc In] in *.
    + unfold kernelU2.
      rewrite (Q0 0%Z i j k) by tauto. cbn [bind].
      rewrite (Q0 0%Z (i - 1)%Z j k) by (left; f_equal; f_equal; f_equal; lia). cbn [bind].
      rewrite (Q0 0%Z (i + 1)%Z j k) by tauto. cbn [bind].
      rewrite (Q1 0%Z i (j - 1)%Z k) by tauto. cbn [bind].
      rewrite (Q1 0%Z i (j + 1)%Z k) by tauto. cbn [bind].
      rewrite (Q1 1%Z i (j - 1)%Z k) by tauto. cbn [bind].
      rewrite (Q1 1%Z (i + 1)%Z (j - 1)%Z k) by tauto. cbn [bind].
      rewrite (Q1 1%Z i j k) by tauto. cbn [bind].
      rewrite (Q1 1%Z (i + 1)%Z j k) by tauto. cbn [bind].
      rewrite W0, W1. cbn [bind]. f_equal.
      replace (i + -1 + 1)%Z with i by lia. replace (j + -1 + 1)%Z with j by lia.
      change (i + -1)%Z with (i - 1)%Z. change (j + -1)%Z with (j - 1)%Z. unfold avg, Rdiv. ring.
    + unfold kernelV2.
      rewrite (Q1 1%Z i j k) by tauto. cbn [bind].
      rewrite (Q0 0%Z (i - 1)%Z j k) by tauto. cbn [bind].
      rewrite (Q0 0%Z (i - 1)%Z (j + 1)%Z k) by tauto. cbn [bind].
      rewrite (Q0 0%Z i j k) by tauto. cbn [bind].
      rewrite (Q0 0%Z i (j + 1)%Z k) by tauto. cbn [bind].
      rewrite (Q0 1%Z (i - 1)%Z j k) by tauto. cbn [bind].
      rewrite (Q0 1%Z (i + 1)%Z j k) by tauto. cbn [bind].
      rewrite (Q1 1%Z i (j - 1)%Z k) by tauto. cbn [bind].
      rewrite (Q1 1%Z i (j + 1)%Z k) by tauto. cbn [bind].
      rewrite W0, W1. cbn [bind]. f_equal.
      replace (i + -1 + 1)%Z with i by lia. replace (j + -1 + 1)%Z with j by lia.
      change (i + -1)%Z with (i - 1)%Z. change (j + -1)%Z with (j - 1)%Z. unfold avg, Rdiv. ring.
  - pose proof (W 0%Z ltac:(lia)) as W0. pose proof (W 1%Z ltac:(lia)) as W1. pose proof (W 2%Z ltac:(lia)) as W2.
    pose proof (Q 0%Z ltac:(lia)) as Q0. pose proof (Q 1%Z ltac:(lia)) as Q1. pose proof (Q 2%Z ltac:(lia)) as Q2. clear W Q.
    change (zrange 0 3) with [0%Z; 1%Z; 2%Z].
    assert (f = 0 \/ f = 1 \/ f = 2)%Z as [-> | [-> | ->]] by lia; cbn [Z.eqb Pos.eqb sumR shift setc pc In] in *.
    all: unfold kernelU3, kernelV3, kernelW3.
    all: repeat match goal with
      | |- context [at_ _ ?g ?a ?b ?c] => first [rewrite (Q0 g a b c) by tauto | rewrite (Q1 g a b c) by tauto | rewrite (Q2 g a b c) by tauto]; cbn [bind]
      end.
    1-3: rewrite W0, W1, W2; cbn [bind]; f_equal.
    Ltac tidy_idx i j k := replace (i + -1 + 1)%Z with i by lia; replace (j + -1 + 1)%Z with j by lia; replace (k + -1 + 1)%Z with k by lia;
      change (i + -1)%Z with (i - 1)%Z; change (j + -1)%Z with (j - 1)%Z; change (k + -1)%Z with (k - 1)%Z; unfold avg, Rdiv; ring.
    + tidy_idx i j k.
    + tidy_idx i j k.
    + tidy_idx i j k.
Qed.

(** * The whole operator *)
(** Value of the arrays of rank r after filling. *)
Definition rval m D types values hist (x : vec) r f (p : pt) : R :=
  if has_image (m_n m f) (periodic_dir m) p then x (idx m D f (image (m_n m f) p))
  else match find (fun kp => stencil_eqb (fst kp) (st_of p)) (fpts m D types values hist r f) with
       | Some kp => gi_value (snd kp) | None => 0 end.

Definition ctx_ok (m : mesh) (D : dec) (types : Z -> Z -> bctype) (C : cctx) : Prop :=
  forall r, (0 <= r < nranks D)%Z -> exists q, nthZ C r = Some q /\ shape_ok m D r q /\
    forall f p id a, (0 <= f < m_dim m)%Z -> nthZ (ghosted_points (m_dim m) D f r) id = Some p -> nthZ q f = Some a ->
      known m D r f p = false -> nthZ a id = Some 0.

Lemma owned_In D f r p : owned D f r p = true <-> In p (local_points D f r).
Proof.
  rewrite local_points_pc. unfold owned. rewrite forallb_forall. split.
  - intros H d Hd. specialize (H d (proj2 (zrange_In 0 3 d) Hd)). lia.
  - intros H d Hd. apply zrange_In in Hd. specialize (H d Hd). lia.
Qed.

Lemma known_iff m D types values hist r f p : mfacts m D -> bc_fits m types -> (0 <= r < nranks D)%Z -> (0 <= f < m_dim m)%Z ->
  (known m D r f p = true <-> has_image (m_n m f) (periodic_dir m) p = true \/ exists info, In (st_of p, info) (fpts m D types values hist r f)).
Proof.
  intros F Hb Hr Hf. unfold known. rewrite orb_true_iff, existsb_exists. split; (intros [H|H]; [now left|right]).
  - destruct H as (loc & Hl & H). apply zrange_In in Hl. rewrite !andb_true_iff in H. destruct H as ((Hn & Hg) & Ho).
    apply owned_In in Ho. apply negb_true_iff in Hn. apply Z.eqb_eq in Hg.
    assert (G : is_ghost (m_n m f) loc p). { split; [exact Hg|]. eapply local_interior; [|exact Hr|exact Ho]. apply (mf_dec _ _ F); auto. }
    pose proof (proj2 (gl_points_In m D r f loc p F Hf Hl Hr) (conj G Ho)) as Hin. apply in_map_iff in Hin. destruct Hin as ([s i] & E & Hin). cbn [fst] in E. subst s.
    destruct (Hb f loc Hf Hl) as [_ Hper].
    eexists. apply fpts_In; auto. apply bpts_intro; eauto. intros E. apply Hper in E. congruence.
  - destruct H as [info Hin]. destruct (fpts_info _ _ _ _ _ _ _ _ _ F Hr Hf Hin) as (loc & q & Hl & Eq & Ht & G & L & _). apply st_of_inj in Eq. subst q.
    exists loc. split; [now apply zrange_In|]. destruct (Hb f loc Hf Hl) as [_ Hper]. destruct G as [G _]. apply owned_In in L. rewrite G, L, Z.eqb_refl.
    destruct (periodic_dir m (loc_dir loc)); [exfalso; apply Ht; now apply Hper|reflexivity].
Qed.

Lemma find_fpts m D types values hist r f p info : mfacts m D -> (0 <= r < nranks D)%Z -> (0 <= f < m_dim m)%Z ->
  In (st_of p, info) (fpts m D types values hist r f) ->
  exists i', find (fun kp => stencil_eqb (fst kp) (st_of p)) (fpts m D types values hist r f) = Some (st_of p, i') /\ In (st_of p, i') (fpts m D types values hist r f).
Proof.
  intros F Hr Hf Hin. destruct (find _ _) as [[s i]|] eqn:E.
  - apply find_some in E. destruct E as [E1 E2]. cbn [fst] in E2. apply stencil_eqb_spec in E2. subst s. eauto.
  - pose proof (find_none _ _ E _ Hin) as N. cbn [fst] in N. rewrite (proj2 (stencil_eqb_spec _ _) eq_refl) in N. discriminate.
Qed.

Lemma fill_rval m D types values hist B x r q : mfacts m D -> diag_per m -> bc_fits m types -> (0 <= r < nranks D)%Z ->
  boundary_after m D types values hist B -> shape_ok m D r q ->
  (forall f p id a, (0 <= f < m_dim m)%Z -> nthZ (ghosted_points (m_dim m) D f r) id = Some p -> nthZ q f = Some a ->
      known m D r f p = false -> nthZ a id = Some 0) ->
  exists q', fill m D B x r q = Ok q' /\ shape_ok m D r q' /\
    forall f p id a, (0 <= f < m_dim m)%Z -> nthZ (ghosted_points (m_dim m) D f r) id = Some p -> nthZ q' f = Some a ->
      nthZ a id = Some (rval m D types values hist x r f p).
Proof.
  intros F Hdp Hb Hr HB Hs H0. destruct (fill_ok m D types values hist B x r q F Hdp Hb Hr HB Hs) as (q' & E & S' & V).
  exists q'. split; auto. split; auto. intros f p id a Hf Hp Ha. destruct (V f p id Hf Hp) as (a' & old & v & Ea & Eo & Ev & V1 & V2 & V3).
  assert (a' = a) by congruence. subst a'. rewrite Ev. f_equal. unfold rval. destruct (has_image _ _ p) eqn:Hi; [now apply V1|].
  destruct (find _ _) as [[s i]|] eqn:Ef.
  - apply find_some in Ef. destruct Ef as [E1 E2]. cbn [fst] in E2. apply stencil_eqb_spec in E2. subst s. cbn [snd]. now apply V2.
  - assert (Hno : forall info, ~ In (st_of p, info) (fpts m D types values hist r f)).
    { intros info Hin. pose proof (find_none _ _ Ef _ Hin) as N. cbn [fst] in N. rewrite (proj2 (stencil_eqb_spec _ _) eq_refl) in N. discriminate. }
    assert (K : known m D r f p = false).
    { destruct (known m D r f p) eqn:K; [|reflexivity]. apply (known_iff m D types values hist) in K; auto. destruct K as [K|[info K]]; [congruence|]. exfalso. eapply Hno; eauto. }
    pose proof (V3 eq_refl Hno) as X. rewrite (H0 f p id old Hf Hp Eo K) in X. congruence.
Qed.

Lemma rval_unknown m D types values hist x r f p : mfacts m D -> bc_fits m types -> (0 <= r < nranks D)%Z -> (0 <= f < m_dim m)%Z ->
  known m D r f p = false -> rval m D types values hist x r f p = 0.
Proof.
  intros F Hb Hr Hf K. unfold rval. destruct (has_image _ _ p) eqn:Hi.
  - exfalso. rewrite (proj2 (known_iff m D types values hist r f p F Hb Hr Hf)) in K by (now left). discriminate.
  - destruct (find _ _) as [[s i]|] eqn:Ef; [|reflexivity]. apply find_some in Ef. destruct Ef as [E1 E2]. cbn [fst] in E2. apply stencil_eqb_spec in E2. subst s.
    rewrite (proj2 (known_iff m D types values hist r f p F Hb Hr Hf)) in K by eauto. discriminate.
Qed.

(** The result of one application. *)
Definition conv_list m D types values hist x : list R :=
  concat (map (fun r => concat (map (fun f => map (convection_at m (rval m D types values hist x r) f) (local_points D f r)) (zrange 0 (m_dim m)))) (zrange 0 (nranks D))).

Lemma mapM_ex {A B} (f : A -> res B) (P : A -> B -> Prop) l : (forall a, In a l -> exists b, f a = Ok b /\ P a b) ->
  exists lb, mapM f l = Ok lb /\ Forall2 P l lb.
Proof.
  induction l as [|a t IH]; intros H; [exists []; split; [reflexivity|constructor]|].
  destruct (H a (or_introl eq_refl)) as (b & E & Pb). destruct IH as (lb & El & Fl); [intros; apply H; now right|].
  exists (b :: lb). cbn [mapM]. rewrite E. cbn [bind]. rewrite El. split; [reflexivity|constructor; auto].
Qed.
Lemma Forall2_nthZ {A B} (P : A -> B -> Prop) l l' i a : Forall2 P l l' -> nthZ l i = Some a -> exists b, nthZ l' i = Some b /\ P a b.
Proof.
  intros H. revert i. induction H as [|x y t t' Hx Ht IH]; intros i Hi.
  - apply nthZ_Some_range in Hi. unfold lenZ in Hi. cbn in Hi. lia.
  - pose proof (nthZ_Some_range _ _ _ Hi) as Hr. destruct (Z.eq_dec i 0) as [->|Hne].
    + rewrite nthZ_cons_0 in Hi. rewrite nthZ_cons_0. injection Hi as <-. eauto.
    + rewrite nthZ_cons_pos in Hi by lia. rewrite nthZ_cons_pos by lia. apply IH. exact Hi.
Qed.

Lemma mult_value m D types values hist C B x : mfacts m D -> diag_per m -> bc_fits m types ->
  boundary_after m D types values hist B -> ctx_ok m D types C ->
  exists C', convectionMult m D C B x = Ok (vec_of (conv_list m D types values hist x), C') /\ ctx_ok m D types C'.
Proof.
  intros F Hdp Hb HB HC. unfold convectionMult.
  destruct (mapM_ex (fun r => do q <- rd C r; fill m D B x r q)
    (fun r q' => shape_ok m D r q' /\ forall f p id a, (0 <= f < m_dim m)%Z -> nthZ (ghosted_points (m_dim m) D f r) id = Some p -> nthZ q' f = Some a ->
      nthZ a id = Some (rval m D types values hist x r f p)) (zrange 0 (nranks D))) as (C' & E' & P').
  { intros r Hr. apply zrange_In in Hr. destruct (HC r Hr) as (q & Eq & Sq & Vq).
    destruct (fill_rval m D types values hist B x r q F Hdp Hb Hr HB Sq Vq) as (q' & E & S' & V). exists q'. split; [|auto].
    unfold rd. rewrite Eq. cbn [bind]. exact E. }
  exists C'. rewrite E'. cbn [bind]. split.
  - rewrite (mapM_ok _ (fun r => map (fun f => map (convection_at m (rval m D types values hist x r) f) (local_points D f r)) (zrange 0 (m_dim m)))).
    + cbn [bind]. unfold conv_list. rewrite map_map. reflexivity.
    + intros r Hr. apply zrange_In in Hr.
      destruct (Forall2_nthZ _ _ _ r r P') as (q & Eq & Sq & Vq). { rewrite nthZ_zrange by lia. f_equal; lia. }
      unfold rd at 1. rewrite Eq. cbn [bind]. apply mapM_ok. intros f Hf. apply zrange_In in Hf. apply mapM_ok. intros p Hp.
      pose proof (local_interior D _ f p r (mf_dec _ _ F f (or_introl Hf)) Hr Hp) as Hin.
      destruct p as [[i j] k]. apply (kernel_value m D f (i, j, k) (flux_of m D r q) (rval m D types values hist x r) F Hf Hin).
      intros g [[i' j'] k'] Hx. destruct (reads_in_box m D r f (i, j, k) g _ F Hr Hf Hp Hx) as [Hg Hb'].
      destruct (local_index_position m D g r (i', j', k') F (or_introl Hg) Hr Hb') as (id & E1 & E2).
      destruct (Sq g Hg) as (a & Ea & La). unfold flux_of, rd at 1. rewrite Ea. cbn [bind]. change (mkSt k' j' i' 0) with (st_of (i', j', k')). rewrite E1.
      unfold rd. rewrite (Vq g (i', j', k') id a Hg E2 Ea). reflexivity.
  - intros r Hr. destruct (Forall2_nthZ _ _ _ r r P') as (q & Eq & Sq & Vq). { rewrite nthZ_zrange by lia. f_equal; lia. }
    exists q. split; auto. split; auto. intros f p id a Hf Hp Ha K. rewrite (Vq f p id a Hf Hp Ha). f_equal. now apply rval_unknown.
Qed.

Lemma ctx_new m D types : ctx_ok m D types (createConvection m D).
Proof.
  intros r Hr. unfold createConvection. eexists. split; [rewrite nthZ_map, nthZ_zrange by lia; cbn [option_map]; reflexivity|].
  replace (0 + r)%Z with r by lia. split.
  - intros f Hf. eexists. split; [rewrite nthZ_map, nthZ_zrange by lia; cbn [option_map]; reflexivity|]. replace (0 + f)%Z with f by lia. now rewrite lenZ_map.
  - intros f p id a Hf Hp Ha _. rewrite nthZ_map, nthZ_zrange in Ha by lia. cbn [option_map] in Ha. injection Ha as <-.
    replace (0 + f)%Z with f by lia. rewrite nthZ_map, Hp. reflexivity.
Qed.
Lemma state_ok m D types values C : mfacts m D -> diag_per m -> bc_fits m types -> conv_state m D types values C -> ctx_ok m D types C.
Proof.
  intros F Hdp Hb H. induction H as [|C hist B x y C' H IH HB E]; [apply ctx_new|].
  destruct (mult_value m D types values hist C B x F Hdp Hb HB IH) as (C2 & E2 & H2). rewrite E in E2. injection E2 as _ <-. exact H2.
Qed.
