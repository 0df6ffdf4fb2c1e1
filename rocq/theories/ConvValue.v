(** Values of the convection operator. *)
From Coq Require Import Permutation ZifyBool.
From Verif Require Import Prelude ZSum RSum TypesModel GridModel GridSpec GridProof MeshProof
  IndexModel IndexSpec IndexProof BoundaryModel BoundarySpec BoundaryProof OperatorModel OperatorSpec OperatorProof BStateProof GradProof
  MatModel AdjProof ConvModel ConvSpec ConvProof.
Local Open Scope R_scope.

(** * From positions to values *)
Definition tagged (dim : Z) (D : dec) : list (Z * (Z * pt)) :=
  flat_map (fun r => flat_map (fun f => map (fun p => (r, (f, p))) (local_points D f r)) (zrange 0 dim)) (zrange 0 (nranks D)).
Lemma map_flat_map {A B C} (h : B -> C) (g : A -> list B) l : map h (flat_map g l) = flat_map (fun a => map h (g a)) l.
Proof. induction l as [|a t IH]; [reflexivity|]. cbn. now rewrite map_app, IH. Qed.
Lemma tagged_layout dim D : packed_layout dim D = map snd (tagged dim D).
Proof.
  unfold packed_layout, tagged. rewrite map_flat_map. apply flat_map_ext. intros r.
  rewrite map_flat_map. apply flat_map_ext. intros f. rewrite map_map. reflexivity.
Qed.
Lemma conv_list_tagged m D types values hist x :
  conv_list m D types values hist x = map (fun t => convection_at m (rval m D types values hist x (fst t)) (fst (snd t)) (snd (snd t))) (tagged (m_dim m) D).
Proof.
  unfold conv_list, tagged. rewrite <- flat_map_concat_map, map_flat_map. apply flat_map_ext. intros r.
  rewrite map_flat_map, <- flat_map_concat_map. apply flat_map_ext. intros f. rewrite map_map. reflexivity.
Qed.
Lemma owner_same m D f p r r' : mfacts m D -> (0 <= f < m_dim m)%Z -> (0 <= r < nranks D)%Z -> (0 <= r' < nranks D)%Z ->
  In p (local_points D f r) -> In p (local_points D f r') -> r = r'.
Proof. intros F Hf Hr Hr' H H'. eapply owner_unique; eauto. apply (mf_dec _ _ F); auto. Qed.

Lemma value_at m D types values hist x id f p r : mfacts m D -> nthZ (packed_layout (m_dim m) D) id = Some (f, p) ->
  (0 <= r < nranks D)%Z -> In p (local_points D f r) ->
  vec_of (conv_list m D types values hist x) id = convection_at m (rval m D types values hist x r) f p.
Proof.
  intros F Hid Hr Hp. rewrite tagged_layout, nthZ_map in Hid. destruct (nthZ (tagged (m_dim m) D) id) as [[r0 [f0 p0]]|] eqn:E; [|discriminate].
  cbn in Hid. injection Hid as -> ->. unfold vec_of. rewrite conv_list_tagged, nthZ_map, E. cbn [option_map fst snd].
  assert (Hin := nthZ_In _ _ _ E). unfold tagged in Hin. apply in_flat_map in Hin. destruct Hin as (r1 & Hr1 & Hin). apply in_flat_map in Hin.
  destruct Hin as (f1 & Hf1 & Hin). apply in_map_iff in Hin. destruct Hin as (p1 & E1 & Hin). injection E1 as -> -> ->. apply zrange_In in Hr1. apply zrange_In in Hf1.
  rewrite (owner_same m D f p r0 r F Hf1 Hr1 Hr Hin Hp). reflexivity.
Qed.

Lemma rval_view m D types values hist B x u r f p : mfacts m D -> bc_fits m types -> boundary_after m D types values hist B -> extends_box m D B x u ->
  (0 <= r < nranks D)%Z -> (0 <= f < m_dim m)%Z -> in_frame (m_n m f) p ->
  rval m D types values hist x r f p = rank_view m D r u f p.
Proof.
  intros F Hb HB ((X1 & _ & X3) & X2) Hr Hf Hfr. unfold rank_view. destruct (known m D r f p) eqn:K; [|now apply rval_unknown].
  unfold rval. destruct (has_image _ _ p) eqn:Hi.
  - rewrite (X2 f p Hf Hfr Hi). symmetry. apply X1. eapply idx_spec; eauto. eapply image_in; eauto.
  - apply (known_iff m D types values hist) in K; auto. destruct K as [K|[info Hin]]; [congruence|].
    destruct (find_fpts m D types values hist r f p info F Hr Hf Hin) as (i' & E & Hin'). rewrite E. cbn [snd]. symmetry. apply X3.
    unfold fpts in Hin'. apply in_flat_map in Hin'. destruct Hin' as (loc & Hl & Hin'). apply zrange_In in Hl.
    exists r. eexists. exists loc. eexists. exists i'. split; [exact Hr|]. rewrite (after_pure _ _ _ _ _ _ _ F Hb HB Hr). unfold pure_state.
    split; [rewrite nthZ_map, nthZ_zrange by lia; cbn [option_map]; reflexivity|].
    split; [rewrite nthZ_map, nthZ_zrange by lia; cbn [option_map]; reflexivity|]. replace (0 + f)%Z with f by lia. replace (0 + loc)%Z with loc by lia.
    split; [exact Hin'|reflexivity].
Qed.

Lemma rank_value m D types values hist C B x u y C' id f p r : mfacts m D -> diag_per m -> bc_fits m types ->
  conv_state m D types values C -> boundary_after m D types values hist B -> extends_box m D B x u ->
  convectionMult m D C B x = Ok (y, C') -> nthZ (packed_layout (m_dim m) D) id = Some (f, p) ->
  (0 <= r < nranks D)%Z -> In p (local_points D f r) ->
  y id = convection_at m (rank_view m D r u) f p.
Proof.
  intros F Hdp Hb HC HB HX E Hid Hr Hp. destruct (mult_value m D types values hist C B x F Hdp Hb HB (state_ok _ _ _ _ _ F Hdp Hb HC)) as (C2 & E2 & _).
  rewrite E in E2. injection E2 as -> _. rewrite (value_at m D types values hist x id f p r F Hid Hr Hp).
  assert (Hf : (0 <= f < m_dim m)%Z) by (destruct (velocity_row m D id f p F Hid) as (Hf & _); exact Hf).
  apply convection_at_ext; auto. intros g q Hq. destruct (reads_in_box m D r f p g q F Hr Hf Hp Hq) as [Hg Hgp].
  eapply rval_view; eauto. eapply ghosted_frame; eauto.
Qed.

(** * Which reads are known *)
Lemma known_image m D r f q : has_image (m_n m f) (periodic_dir m) q = true -> known m D r f q = true.
Proof. intros H. unfold known. now rewrite H. Qed.
Lemma known_ghost m D r f q loc : (0 <= loc < m_dim m * 2)%Z -> periodic_dir m (loc_dir loc) = false -> pc q (loc_dir loc) = ghost_layer (m_n m f) loc ->
  In (inner_of (m_n m f) loc q) (local_points D f r) -> known m D r f q = true.
Proof.
  intros Hl Hp Hg Hi. unfold known. apply orb_true_iff. right. apply existsb_exists. exists loc. split; [now apply zrange_In|].
  rewrite Hp, Hg, Z.eqb_refl, (proj2 (owned_In _ _ _ _) Hi). reflexivity.
Qed.
(** A point whose coordinates are inside, or outside in periodic directions. *)
Lemma known_inside m D r f q : (forall d, (0 <= d < 3)%Z -> periodic_dir m d = true \/ (0 <= pc q d < m_n m f d)%Z) -> known m D r f q = true.
Proof.
  intros H. apply known_image. apply has_image_pc. intros d Hd Ho. destruct (H d Hd) as [|H']; auto. unfold outside in Ho. lia.
Qed.
Lemma low_loc d : (0 <= d)%Z -> loc_dir (2 * d) = d /\ ((2 * d) mod 2 = 0)%Z.
Proof. intros Hd. unfold loc_dir. rewrite Z.mul_comm. rewrite Z.div_mul, Z.mod_mul by lia. auto. Qed.
Lemma high_loc d : (0 <= d)%Z -> loc_dir (2 * d + 1) = d /\ ((2 * d + 1) mod 2 = 1)%Z.
Proof. intros Hd. unfold loc_dir. destruct (div_mod_unique2 (2 * d + 1) 2 d 1 ltac:(lia) ltac:(lia) ltac:(lia)) as [-> ->]. auto. Qed.

Section Known.
Context (m : mesh) (D : dec) (F : mfacts m D) (r f : Z) (p : pt).
Hypothesis Hr : (0 <= r < nranks D)%Z.
Hypothesis Hf : (0 <= f < m_dim m)%Z.
Hypothesis Hp : In p (local_points D f r).

Lemma p_inside : interior (m_n m f) p.
Proof. eapply local_interior; eauto. apply (mf_dec _ _ F); auto. Qed.

Lemma own_known d s : (0 <= d < m_dim m)%Z -> (s = 1 \/ s = -1)%Z -> known m D r f (shift p d s) = true.
Proof.
  intros Hd Hs. pose proof p_inside as Hin. rewrite interior_pc in Hin. pose proof (mf_dim _ _ F) as Hdim.
  destruct (periodic_dir m d) eqn:Hper.
  - apply known_inside. intros e He. rewrite pc_shift2 by lia. destruct (Z.eqb_spec e d) as [->|]; [now left|right; auto].
  - destruct Hs as [-> | ->].
    + destruct (Z.ltb_spec (pc p d + 1) (m_n m f d)).
      * apply known_inside. intros e He. right. specialize (Hin e He). rewrite pc_shift2 by lia. destruct (Z.eqb_spec e d) as [->|]; lia.
      * destruct (high_loc d ltac:(lia)) as [L1 L2]. specialize (Hin d ltac:(lia)) as Hd0.
        assert (N : inner_of (m_n m f) (2 * d + 1) (shift p d 1) = p).
        { unfold inner_of, inner_layer. rewrite L1, L2. apply pt_ext. intros e He. rewrite pc_setc by lia. cbn. rewrite pc_shift2 by lia. destruct (Z.eqb_spec e d) as [->|]; lia. }
        apply (known_ghost _ _ _ _ _ (2 * d + 1)); [lia|now rewrite L1| |now rewrite N].
        unfold ghost_layer. rewrite L1, L2. cbn. rewrite pc_shift2, Z.eqb_refl by lia. lia.
    + destruct (Z.ltb_spec 0 (pc p d)).
      * apply known_inside. intros e He. right. specialize (Hin e He). rewrite pc_shift2 by lia. destruct (Z.eqb_spec e d) as [->|]; lia.
      * destruct (low_loc d ltac:(lia)) as [L1 L2]. specialize (Hin d ltac:(lia)) as Hd0.
        assert (N : inner_of (m_n m f) (2 * d) (shift p d (-1)) = p).
        { unfold inner_of, inner_layer. rewrite L1, L2. apply pt_ext. intros e He. rewrite pc_setc by lia. cbn. rewrite pc_shift2 by lia. destruct (Z.eqb_spec e d) as [->|]; lia. }
        apply (known_ghost _ _ _ _ _ (2 * d)); [lia|now rewrite L1| |now rewrite N].
        unfold ghost_layer. rewrite L1, L2. cbn. rewrite pc_shift2, Z.eqb_refl by lia. lia.
Qed.

(** Another component at p, and one step along f. *)
Lemma other_range d e : (0 <= d < m_dim m)%Z -> d <> f -> (0 <= e < 3)%Z -> e <> d -> (0 <= pc p e < m_n m d e)%Z.
Proof.
  intros Hd Hne He Hed. pose proof p_inside as Hin. rewrite interior_pc in Hin. specialize (Hin e He).
  destruct (n_next m D f d e F Hf Hd He Hne) as [N _]. specialize (N Hed). lia.
Qed.
Lemma other_step d : (0 <= d < m_dim m)%Z -> d <> f -> periodic_dir m f = false -> (pc p f + 1 < m_n m d f)%Z.
Proof.
  intros Hd Hne Hper. pose proof p_inside as Hin. rewrite interior_pc in Hin. specialize (Hin f ltac:(pose proof (mf_dim _ _ F); lia)).
  pose proof (mf_n_own _ _ F f Hf) as N. rewrite Hper in N. rewrite (mf_n_oth _ _ F d f Hd) by (first [lia | pose proof (mf_dim _ _ F); lia]). lia.
Qed.
(** In its own direction, component d may end one point before component f. *)
Lemma other_end d : (0 <= d < m_dim m)%Z -> d <> f -> (pc p d < m_n m d d \/ (pc p d = m_n m d d /\ periodic_dir m d = false))%Z.
Proof.
  intros Hd Hne. pose proof p_inside as Hin. rewrite interior_pc in Hin. specialize (Hin d ltac:(pose proof (mf_dim _ _ F); lia)).
  pose proof (mf_n_own _ _ F d Hd) as N. rewrite (mf_n_oth _ _ F f d Hf) in Hin by (first [lia | pose proof (mf_dim _ _ F); lia]).
  destruct (periodic_dir m d); lia.
Qed.
End Known.

Lemma slab_nonempty m D f d r : mfacts m D -> (0 <= f < m_dim m \/ f = 3)%Z -> (0 <= d < 3)%Z -> (0 <= r < nranks D)%Z -> (1 <= d_m D f d r)%Z.
Proof.
  intros F Hf Hd Hr. unfold d_m.
  assert (Hnp : forall e, (0 <= e < 3)%Z -> (1 <= ds_np D e)%Z) by (intros e0 He0; pose proof (mf_np _ _ F f e0 Hf He0); lia).
  pose proof (rcoord_range D d r Hnp Hd Hr) as Hc. pose proof (mf_np _ _ F f d Hf Hd) as N.
  rewrite (mf_split _ _ F) by auto. unfold dmda_l.
  assert (1 <= m_n m f d / ds_np D d)%Z by (apply Z.div_le_lower_bound; lia). destruct (_ >? _)%Z; lia.
Qed.
Lemma whole_dir m D f d r : mfacts m D -> (0 <= f < m_dim m \/ f = 3)%Z -> (0 <= d < 3)%Z -> (0 <= r < nranks D)%Z -> ds_np D d = 1%Z ->
  d_bg D f d r = 0%Z /\ d_ed D f d r = m_n m f d.
Proof.
  intros F Hf Hd Hr H1.
  assert (Hnp : forall e, (0 <= e < 3)%Z -> (1 <= ds_np D e)%Z) by (intros e0 He0; pose proof (mf_np _ _ F f e0 Hf He0); lia).
  pose proof (rcoord_range D d r Hnp Hd Hr) as Hc. assert (E : rcoord D d r = 0%Z) by lia.
  destruct (mf_dec _ _ F f Hf) as [_ X]. destruct (X d Hd) as [_ S]. unfold d_ed, d_bg, d_m. rewrite E. rewrite isum_nil by lia. split; [reflexivity|].
  rewrite <- S, H1. change 1%Z with (0 + 1)%Z. rewrite isum_snoc, isum_nil by lia. lia.
Qed.

Section Cross.
Context (m : mesh) (D : dec) (F : mfacts m D) (r f : Z) (p : pt).
Hypothesis Hr : (0 <= r < nranks D)%Z.
Hypothesis Hf : (0 <= f < m_dim m)%Z.
Hypothesis Hp : In p (local_points D f r).

(** q: p moved by at most one step along f, and along d. *)
Definition near (d : Z) (q : pt) : Prop :=
  (forall e, (0 <= e < 3)%Z -> e <> d -> e <> f -> pc q e = pc p e) /\ (pc q f = pc p f \/ pc q f = pc p f + 1)%Z.

Lemma cross_inside d q : (0 <= d < m_dim m)%Z -> d <> f -> near d q -> (periodic_dir m d = true \/ (0 <= pc q d < m_n m d d)%Z) ->
  known m D r d q = true.
Proof.
  intros Hd Hne [Q1 Q2] H. pose proof (mf_dim _ _ F) as Hdim. apply known_inside. intros e He. destruct (Z.eq_dec e d) as [->|Hed]; [exact H|].
  pose proof (other_range m D F r f p Hr Hf Hp d e Hd Hne He Hed) as R. destruct (Z.eq_dec e f) as [->|Hef]; [|right; now rewrite Q1].
  destruct (periodic_dir m f) eqn:Hper; [now left|right]. pose proof (other_step m D F r f p Hr Hf Hp d Hd Hne Hper). lia.
Qed.
Lemma cross_wall d q : (0 <= d < m_dim m)%Z -> d <> f -> near d q -> periodic_dir m d = false -> ds_np D f = 1%Z -> periodic_dir m f = false ->
  (pc p d = 0 /\ pc q d = -1 \/ pc p d = m_n m f d - 1 /\ pc q d = m_n m d d)%Z -> known m D r d q = true.
Proof.
  intros Hd Hne [Q1 Q2] Hpd H1 Hpf H. pose proof (mf_dim _ _ F) as Hdim.
  assert (In_ : forall x, (pc p d = 0 /\ x = 0 \/ pc p d = m_n m f d - 1 /\ x = m_n m d d - 1)%Z -> In (setc q d x) (local_points D d r)).
  { intros x Hx. apply local_points_pc. intros e He. rewrite pc_setc by lia. pose proof Hp as Hpe. rewrite local_points_pc in Hpe. specialize (Hpe e He).
    destruct (n_next m D f d e F Hf Hd He Hne) as [_ N2]. destruct (Z.eqb_spec e d) as [->|Hed].
    - specialize (N2 ltac:(congruence)). destruct (box_next m D d f d r F (or_introl Hd) (or_introl Hf) He Hr N2) as [A B].
      pose proof (slab_nonempty m D d d r F (or_introl Hd) He Hr). pose proof (slab_nonempty m D f d r F (or_introl Hf) He Hr).
      pose proof (d_range D (m_n m d) d d r (mf_dec _ _ F d (or_introl Hd)) He Hr). pose proof (d_range D (m_n m f) f d r (mf_dec _ _ F f (or_introl Hf)) He Hr).
      pose proof (mf_n_own _ _ F d Hd) as No. rewrite Hpd in No. pose proof (mf_n_oth _ _ F f d Hf He ltac:(congruence)) as Nf.
      unfold d_ed in *. lia.
    - destruct (Z.eq_dec e f) as [->|Hef].
      + destruct (whole_dir m D d f r F (or_introl Hd) He Hr H1) as [-> ->].
        pose proof (other_range m D F r f p Hr Hf Hp d f Hd Hne He ltac:(congruence)). pose proof (other_step m D F r f p Hr Hf Hp d Hd Hne Hpf). lia.
      + rewrite Q1 by auto.
        assert (E : m_n m f e = m_n m d e) by (rewrite (mf_n_oth _ _ F d e Hd He ltac:(congruence)), (mf_n_oth _ _ F f e Hf He ltac:(congruence)); reflexivity).
        destruct (box_next m D f d e r F (or_introl Hf) (or_introl Hd) He Hr ltac:(lia)) as [A B].
        destruct (box_next m D d f e r F (or_introl Hd) (or_introl Hf) He Hr ltac:(lia)) as [A' B']. lia. }
  destruct H as [[H2 H3]|[H2 H3]].
  - destruct (low_loc d ltac:(lia)) as [L1 L2]. apply (known_ghost _ _ _ _ _ (2 * d)%Z); [lia|now rewrite L1| |].
    + unfold ghost_layer. rewrite L1, L2. exact H3.
    + unfold inner_of, inner_layer. rewrite L1, L2. apply In_. left. cbn. auto.
  - destruct (high_loc d ltac:(lia)) as [L1 L2]. apply (known_ghost _ _ _ _ _ (2 * d + 1)%Z); [lia|now rewrite L1| |].
    + unfold ghost_layer. rewrite L1, L2. exact H3.
    + unfold inner_of, inner_layer. rewrite L1, L2. apply In_. right. cbn. auto.
Qed.

Lemma view_known u g q : known m D r g q = true -> rank_view m D r u g q = u g q.
Proof. intros H. unfold rank_view. now rewrite H. Qed.
Lemma view_zero u g q : u g q = 0 -> rank_view m D r u g q = 0.
Proof. intros H. unfold rank_view. destruct (known m D r g q); auto. Qed.

Lemma view_self u : rank_view m D r u f p = u f p.
Proof.
  apply view_known. apply known_inside. intros e He. right. pose proof (p_inside m D F r f p Hr Hf Hp) as H. rewrite interior_pc in H. auto.
Qed.
Lemma view_own u d s : (0 <= d < m_dim m)%Z -> (s = 1 \/ s = -1)%Z -> rank_view m D r u f (shift p d s) = u f (shift p d s).
Proof. intros Hd Hs. apply view_known. now apply own_known. Qed.

Lemma near_p d : (0 <= d < m_dim m)%Z -> d <> f -> near d p.
Proof. intros. split; auto. Qed.
Lemma near_shift d q s : (0 <= d < m_dim m)%Z -> d <> f -> near d q -> near d (shift q d s).
Proof.
  intros Hd Hne [A B]. pose proof (mf_dim _ _ F). split.
  - intros e He H1 H2. rewrite pc_shift2 by lia. destruct (Z.eqb_spec e d); [congruence|auto].
  - rewrite pc_shift2 by lia. destruct (Z.eqb_spec f d); [congruence|auto].
Qed.
Lemma near_f d q : (0 <= d < m_dim m)%Z -> d <> f -> near d q -> pc q f = pc p f -> near d (shift q f 1).
Proof.
  intros Hd Hne [A B] E. pose proof (mf_dim _ _ F). split.
  - intros e He H1 H2. rewrite pc_shift2 by lia. destruct (Z.eqb_spec e f); [congruence|auto].
  - rewrite pc_shift2, Z.eqb_refl by lia. lia.
Qed.

Lemma view_value u : quiet_walls m D u f p -> convection_at m (rank_view m D r u) f p = convection_at m u f p.
Proof.
  intros Hq. pose proof (mf_dim _ _ F) as Hdim. unfold convection_at. apply zsum_ext. intros d Hd. f_equal.
  assert (P1 : momentum_flux (rank_view m D r u) f d p = momentum_flux u f d p).
  { unfold momentum_flux. rewrite view_self, (view_own u d 1) by auto. destruct (Z.eq_dec d f) as [->|Hne]; [rewrite view_self, (view_own u f 1) by auto; reflexivity|].
    pose proof (near_p d Hd Hne) as N0. pose proof (near_f d p Hd Hne N0 eq_refl) as N1.
    assert (Epc : pc (shift p f 1) d = pc p d) by (rewrite pc_shift2 by lia; destruct (Z.eqb_spec d f); [congruence|reflexivity]).
    destruct (periodic_dir m d) eqn:Hper.
    - rewrite (view_known u d p), (view_known u d (shift p f 1)) by (apply cross_inside; auto). reflexivity.
    - pose proof (p_inside m D F r f p Hr Hf Hp) as Hin. rewrite interior_pc in Hin. specialize (Hin d ltac:(lia)).
      destruct (other_end m D F r f p Hr Hf Hp d Hd Hne) as [Hlt|[Heq _]].
      + rewrite (view_known u d p), (view_known u d (shift p f 1)) by (apply cross_inside; auto; right; lia). reflexivity.
      + assert (En : pc p d = (m_n m f d - 1)%Z) by (pose proof (mf_n_own _ _ F d Hd) as No; rewrite Hper in No; rewrite (mf_n_oth _ _ F f d Hf ltac:(lia) ltac:(congruence)); lia).
        destruct (Hq d Hd Hne Hper) as [[H1 H2]|[_ H]].
        * rewrite (view_known u d p), (view_known u d (shift p f 1)) by (apply cross_wall; auto; right; lia). reflexivity.
        * destruct (H En) as [[Z1 Z2]|Z0].
          -- rewrite (view_zero u d p Z1), (view_zero u d (shift p f 1) Z2), Z1, Z2. reflexivity.
          -- replace ((u f p + u f (shift p d 1)) / 2) with 0 by lra. lra. }
  assert (P2 : momentum_flux (rank_view m D r u) f d (shift p d (-1)) = momentum_flux u f d (shift p d (-1))).
  { unfold momentum_flux. rewrite !shift_back, view_self, (view_own u d (-1)) by auto.
    destruct (Z.eq_dec d f) as [->|Hne]; [rewrite !shift_back, view_self, (view_own u f (-1)) by auto; reflexivity|].
    set (q := shift p d (-1)).
    assert (N0 : near d q) by (apply near_shift; auto; now apply near_p).
    assert (Eq : pc q f = pc p f) by (unfold q; rewrite pc_shift2 by lia; destruct (Z.eqb_spec f d); [congruence|reflexivity]).
    pose proof (near_f d q Hd Hne N0 Eq) as N1.
    assert (Ed : pc q d = (pc p d - 1)%Z) by (unfold q; rewrite pc_shift2, Z.eqb_refl by lia; lia).
    assert (Epc : pc (shift q f 1) d = pc q d) by (rewrite pc_shift2 by lia; destruct (Z.eqb_spec d f); [congruence|reflexivity]).
    destruct (periodic_dir m d) eqn:Hper.
    - rewrite (view_known u d q), (view_known u d (shift q f 1)) by (apply cross_inside; auto). reflexivity.
    - pose proof (p_inside m D F r f p Hr Hf Hp) as Hin. rewrite interior_pc in Hin. specialize (Hin d ltac:(lia)).
      pose proof (mf_n_own _ _ F d Hd) as No. rewrite Hper in No. rewrite (mf_n_oth _ _ F f d Hf ltac:(lia) ltac:(congruence)) in Hin.
      destruct (Z.eq_dec (pc p d) 0) as [E0|E0].
      + destruct (Hq d Hd Hne Hper) as [[H1 H2]|[H _]].
        * rewrite (view_known u d q), (view_known u d (shift q f 1)) by (apply cross_wall; auto; left; lia). reflexivity.
        * destruct (H E0) as [[Z1 Z2]|Z0].
          -- fold q in Z1, Z2. rewrite (view_zero u d q Z1), (view_zero u d (shift q f 1) Z2), Z1, Z2. reflexivity.
          -- fold q in Z0. replace ((u f q + u f p) / 2) with 0 by lra. lra.
      + rewrite (view_known u d q), (view_known u d (shift q f 1)) by (apply cross_inside; auto; right; lia). reflexivity. }
  rewrite P1, P2. reflexivity.
Qed.
End Cross.
