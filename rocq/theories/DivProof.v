From Coq Require Import Permutation ZifyBool.
From Verif Require Import Prelude ZSum RSum TypesModel GridModel GridSpec GridProof MeshProof
  IndexModel IndexSpec IndexProof BoundaryModel BoundarySpec BoundaryProof OperatorModel OperatorSpec OperatorProof BStateProof LapProof.
Local Open Scope R_scope.

(** * Pressure indices *)
Lemma fidx_gidx m D s : fidx m D 3 s = gidx m D 3 s.
Proof. unfold fidx, gidx, getPackedGlobalIndex. cbn [Z.eqb Pos.eqb orb]. destruct (getGlobalIndex _ _ _ _ _ _ _ _ _); reflexivity. Qed.

Lemma pidx_spec m D p : mfacts m D -> interior (m_n m 3) p ->
  gidx m D 3 (st_of p) = Ok (idx m D 3 p) /\ nthZ (field_layout D 3) (idx m D 3 p) = Some p.
Proof.
  intros F Hp. destruct p as [[i j] k]. unfold idx. rewrite gidx_st.
  destruct (packed_pressure true (m_dim m) (m_n m) (m_periodic m 0%Z) D i j k (mf_sizes _ _ F 3%Z (or_intror eq_refl))
    (mf_dec _ _ F 3%Z (or_intror eq_refl)) Hp) as (x & E & N).
  rewrite E. simpl. auto.
Qed.
Lemma pidx_inj m D p p' : mfacts m D -> interior (m_n m 3) p -> interior (m_n m 3) p' -> idx m D 3 p = idx m D 3 p' -> p = p'.
Proof.
  intros F Hp Hp' E. destruct (pidx_spec m D p F Hp) as [_ A]. destruct (pidx_spec m D p' F Hp') as [_ B]. rewrite E in A. congruence.
Qed.
Lemma pidx_range m D p : mfacts m D -> interior (m_n m 3) p -> (0 <= idx m D 3 p < n_pressure m)%Z.
Proof.
  intros F Hp. destruct (pidx_spec m D p F Hp) as [_ A]. apply nthZ_Some_range in A.
  rewrite (field_layout_len D (m_n m 3)) in A; auto; try (pose proof (sizes_pos m D 3 0 F (or_intror eq_refl) ltac:(lia));
    pose proof (sizes_pos m D 3 1 F (or_intror eq_refl) ltac:(lia)); pose proof (sizes_pos m D 3 2 F (or_intror eq_refl) ltac:(lia)); lia).
  apply (mf_dec _ _ F); auto.
Qed.

(** * Split of the points between the ranks *)
Lemma dmda_pos M k q : (1 <= k <= M)%Z -> (1 <= dmda_l M k q)%Z.
Proof. intros H. unfold dmda_l. assert (1 <= M / k)%Z by (apply Z.div_le_lower_bound; lia). destruct (_ >? _)%Z; lia. Qed.

Lemma split_same m D f e r : mfacts m D -> (0 <= f < m_dim m)%Z -> (0 <= e < 3)%Z -> f <> e ->
  d_bg D f e r = d_bg D 3 e r /\ d_ed D f e r = d_ed D 3 e r.
Proof.
  intros F Hf He Hne.
  assert (X : forall q, ds_l D f e q = ds_l D 3 e q).
  { intros q. rewrite !(mf_split _ _ F) by (auto; lia). rewrite (mf_n_oth _ _ F) by auto. reflexivity. }
  unfold d_ed, d_bg, d_m. rewrite X. rewrite (isum_ext _ (ds_l D 3 e)) by auto. auto.
Qed.

Lemma rc_range m D f d r : mfacts m D -> (0 <= f < m_dim m \/ f = 3)%Z -> (0 <= d < 3)%Z -> (0 <= r < nranks D)%Z ->
  (0 <= rcoord D d r < ds_np D d)%Z.
Proof. intros F Hf Hd Hr. eapply rcoord_range; eauto. apply (mf_dec _ _ F f Hf). Qed.

(** The rank that holds the first (last) point of one field holds the first
    (last) point of all. *)
Lemma first_rank m D f d r : mfacts m D -> (0 <= f < m_dim m \/ f = 3)%Z -> (0 <= d < 3)%Z -> (0 <= r < nranks D)%Z ->
  ((d_bg D f d r <= 0 < d_ed D f d r)%Z <-> rcoord D d r = 0%Z).
Proof.
  intros F Hf Hd Hr. pose proof (rc_range m D f d r F Hf Hd Hr) as Hq. pose proof (mf_np _ _ F f d Hf Hd) as Hnp.
  assert (P : forall q, (1 <= ds_l D f d q)%Z) by (intros q; rewrite (mf_split _ _ F) by auto; now apply dmda_pos).
  unfold d_ed, d_bg, d_m. split.
  - intros [H _]. destruct (Z.eq_dec (rcoord D d r) 0) as [|Hne]; auto. exfalso.
    assert (1 <= isum (ds_l D f d) 0 (rcoord D d r))%Z; [|lia].
    replace (rcoord D d r) with ((rcoord D d r - 1) + 1)%Z by lia. rewrite isum_snoc by lia.
    pose proof (isum_nonneg (ds_l D f d) 0 (rcoord D d r - 1) ltac:(intros; specialize (P i); lia)). specialize (P (rcoord D d r - 1)%Z). lia.
  - intros ->. rewrite isum_nil by lia. specialize (P 0%Z). lia.
Qed.
Lemma last_rank m D f d r : mfacts m D -> (0 <= f < m_dim m \/ f = 3)%Z -> (0 <= d < 3)%Z -> (0 <= r < nranks D)%Z ->
  ((d_bg D f d r <= m_n m f d - 1 < d_ed D f d r)%Z <-> rcoord D d r = (ds_np D d - 1)%Z).
Proof.
  intros F Hf Hd Hr. pose proof (rc_range m D f d r F Hf Hd Hr) as Hq. pose proof (mf_np _ _ F f d Hf Hd) as Hnp.
  assert (P : forall q, (1 <= ds_l D f d q)%Z) by (intros q; rewrite (mf_split _ _ F) by auto; now apply dmda_pos).
  destruct (mf_dec _ _ F f Hf) as [_ Hs]. destruct (Hs d Hd) as [_ Hs1].
  unfold d_ed, d_bg, d_m. rewrite <- isum_snoc by lia. split.
  - intros [_ H]. destruct (Z.eq_dec (rcoord D d r) (ds_np D d - 1)) as [|Hne]; auto. exfalso.
    assert (isum (ds_l D f d) 0 (rcoord D d r + 1) < isum (ds_l D f d) 0 (ds_np D d))%Z; [|lia].
    rewrite (isum_app (ds_l D f d) 0 (rcoord D d r + 1) (ds_np D d)) by lia.
    pose proof (isum_app (ds_l D f d) (rcoord D d r + 1) (ds_np D d - 1) (ds_np D d) ltac:(lia)).
    pose proof (isum_nonneg (ds_l D f d) (rcoord D d r + 1) (ds_np D d - 1) ltac:(intros i0 _; specialize (P i0); lia)).
    pose proof (isum_snoc (ds_l D f d) (ds_np D d - 1) (ds_np D d - 1) ltac:(lia)) as E.
    rewrite (isum_nil _ _ (ds_np D d - 1)) in E by lia. replace (ds_np D d - 1 + 1)%Z with (ds_np D d) in E by lia.
    specialize (P (ds_np D d - 1)%Z). lia.
  - intros ->. replace (ds_np D d - 1 + 1)%Z with (ds_np D d) by lia. rewrite Hs1. split; [|lia].
    assert (E : isum (ds_l D f d) 0 (ds_np D d) = (isum (ds_l D f d) 0 (ds_np D d - 1) + ds_l D f d (ds_np D d - 1))%Z).
    { replace (ds_np D d) with ((ds_np D d - 1) + 1)%Z at 1 by lia. apply isum_snoc. lia. }
    specialize (P (ds_np D d - 1)%Z). lia.
Qed.

(** * Rows *)
Definition div_items (m : mesh) (D : dec) (nrm : bool) (p : pt) : list item :=
  flat_map (fun f => [mkIt f (st_of p) (idx m D f p) (face_area m nrm f p);
                      mkIt f (st_of (shift p f (-1))) (idx m D f (shift p f (-1))) (- face_area m nrm f p)]) (zrange 0 (m_dim m)).
Definition div_rows (m : mesh) (D : dec) (nrm : bool) (r : Z) : list rowspec :=
  map (fun p => (idx m D 3 p, div_items m D nrm p)) (local_points D 3 r).

(** A face of a pressure cell: a velocity point, a periodic image, or a ghost
    point of a boundary normal to the component. *)
Definition face_pt (p : pt) (f : Z) (s : Z) : pt := shift p f s.

Lemma face_cases m D f p s : mfacts m D -> (0 <= f < m_dim m)%Z -> interior (m_n m 3) p -> (s = 0 \/ s = -1)%Z ->
  let q := shift p f s in let n := m_n m f in
  (interior n (image n q) /\ gidx m D f (st_of q) = Ok (idx m D f (image n q)) /\
     (interior n q \/ (n_outside n q = 1%Z /\ in_frame n q /\ has_image n (periodic_dir m) q = true /\ s = (-1)%Z /\ pc p f = 0%Z /\ periodic_dir m f = true)))
  \/
  (gidx m D f (st_of q) = Ok (-1)%Z /\ periodic_dir m f = false /\
     let loc := (2 * f + (if s =? 0 then 1 else 0))%Z in (0 <= loc < m_dim m * 2)%Z /\ loc_dir loc = f /\ is_ghost n loc q /\
     pc q f = (if (s =? 0)%Z then n f else -1)%Z /\
     forall r, (0 <= r < nranks D)%Z -> In p (local_points D 3 r) -> In (inner_of n loc q) (local_points D f r)).
Proof.
  intros F Hf Hp Hs q n. pose proof (mf_dim _ _ F) as Hdim. assert (Hp' := Hp). rewrite interior_pc in Hp.
  assert (Hn : forall e, (0 <= e < 3)%Z -> (1 <= n e)%Z) by (intros; eapply sizes_pos; eauto).
  assert (Od : pc q f = (pc p f + s)%Z) by (unfold q; rewrite pc_shift by lia; now rewrite Z.eqb_refl).
  assert (O : forall e, (0 <= e < 3)%Z -> e <> f -> pc q e = pc p e /\ (0 <= pc q e < n e)%Z).
  { intros e He Hne. assert (E : pc q e = pc p e) by (unfold q; rewrite pc_shift by lia; replace (e =? f)%Z with false by lia; reflexivity).
    split; auto. rewrite E. unfold n. rewrite (mf_n_oth _ _ F) by auto. now apply Hp. }
  pose proof (Hp f ltac:(lia)) as Hpf. pose proof (mf_n_own _ _ F f Hf) as Hown. fold n in Hown. pose proof (Hn f ltac:(lia)) as Hnf.
  assert (Fr : in_frame n q).
  { apply in_frame_pc. intros e He. destruct (Z.eq_dec e f) as [->|Hne]; [|specialize (O e He Hne); lia]. rewrite Od. destruct (periodic_dir m f); lia. }
  assert (No : n_outside n q = (if outside (n f) (pc p f + s) then 1 else 0)%Z).
  { rewrite (n_outside_one n q f ltac:(lia)); [now rewrite Od|]. intros e He Hne. now apply O. }
  destruct (gidx_frame m D f q F Hf Fr) as [A B]. { fold n. rewrite No. destruct (outside _ _); lia. } fold n in A, B.
  destruct (outside (n f) (pc p f + s)) eqn:Eo.
  - (* outside *)
    destruct (periodic_dir m f) eqn:Ep.
    + left. assert (Hi : has_image n (periodic_dir m) q = true).
      { apply has_image_pc. intros e He Ho. destruct (Z.eq_dec e f) as [->|Hne]; auto. specialize (O e He Hne). unfold outside in Ho. lia. }
      destruct (B Hi) as [B1 B2]. split; auto. split; auto. right. unfold outside in Eo. repeat split; auto; lia.
    + right. assert (Hi : has_image n (periodic_dir m) q = false).
      { destruct (has_image n (periodic_dir m) q) eqn:Hi; auto. rewrite has_image_pc in Hi. rewrite <- Ep. symmetry. apply Hi; [lia|]. now rewrite Od. }
      split; [now apply A|]. split; auto. intros loc. unfold outside in Eo.
      assert (Hloc : (0 <= loc < m_dim m * 2)%Z /\ loc_dir loc = f /\ (loc mod 2 =? 0)%Z = negb (s =? 0)%Z).
      { unfold loc, loc_dir. destruct Hs as [->| ->]; cbn [Z.eqb Pos.eqb negb].
        - rewrite <- (Z.div_unique (2 * f + 1) 2 f 1) by lia. rewrite <- (Z.mod_unique (2 * f + 1) 2 f 1) by lia. split; [lia|split; reflexivity].
        - rewrite <- (Z.div_unique (2 * f + 0) 2 f 0) by lia. rewrite <- (Z.mod_unique (2 * f + 0) 2 f 0) by lia. split; [lia|split; reflexivity]. }
      destruct Hloc as (L1 & L2 & L3). split; auto. split; auto. unfold is_ghost, inner_of. rewrite L2.
      unfold ghost_layer, inner_layer. rewrite L3, L2.
      assert (Eq : pc q f = (if (s =? 0)%Z then n f else -1)%Z) by (rewrite Od; destruct Hs as [->| ->]; cbn; lia).
      split; [|split; auto].
      * split; [rewrite Eq; destruct (s =? 0)%Z; reflexivity|]. apply interior_pc. intros e He. rewrite pc_setc by lia.
        destruct (Z.eqb_spec e f) as [->|Hne]; [destruct (s =? 0)%Z; cbn; lia|now apply O].
      * intros r Hr Hpl. rewrite local_points_pc in *. intros e He. rewrite pc_setc by lia.
        destruct (Z.eqb_spec e f) as [->|Hne].
        -- specialize (Hpl f He). destruct Hs as [->| ->]; cbn [Z.eqb negb].
           ++ apply (last_rank m D f f r F (or_introl Hf) He Hr). apply (last_rank m D 3 f r F (or_intror eq_refl) He Hr).
              replace (m_n m 3 f - 1)%Z with (pc p f) by lia. exact Hpl.
           ++ apply (first_rank m D f f r F (or_introl Hf) He Hr). apply (first_rank m D 3 f r F (or_intror eq_refl) He Hr).
              replace 0%Z with (pc p f) by lia. exact Hpl.
        -- destruct (split_same m D f e r F Hf He ltac:(auto)) as [-> ->]. destruct (O e He Hne) as [-> _]. now apply Hpl.
  - left. assert (Hin : interior n q).
    { apply interior_pc. intros e He. destruct (Z.eq_dec e f) as [->|Hne]; [rewrite Od; unfold outside in Eo; lia|now apply O]. }
    rewrite image_interior by auto. destruct (idx_spec m D f q F Hf Hin) as [E _]. auto.
Qed.

Lemma gidx_face m D f p s : mfacts m D -> (0 <= f < m_dim m)%Z -> interior (m_n m 3) p -> (s = 0 \/ s = -1)%Z ->
  gidx m D f (st_of (shift p f s)) = Ok (idx m D f (shift p f s)).
Proof.
  intros F Hf Hp Hs. destruct (face_cases m D f p s F Hf Hp Hs) as [(_ & E & _)|(E & _)]; unfold idx at 1; rewrite E; reflexivity.
Qed.

Lemma shift0 p f : (0 <= f < 3)%Z -> shift p f 0 = p.
Proof. intros Hf. apply pt_ext. intros e He. rewrite pc_shift by auto. destruct (Z.eqb_spec e f) as [->|]; lia. Qed.

Lemma div_kernel_ok m D nrm f i j k : mfacts m D -> (0 <= f < m_dim m)%Z -> interior (m_n m 3) (i, j, k) ->
  div_kernel m nrm f i j k = Ok (face_area m nrm f (i, j, k)).
Proof.
  intros F Hf Hp. unfold div_kernel, face_area. destruct nrm; [reflexivity|]. pose proof (mf_dim _ _ F) as Hdim.
  assert (W : forall e x, (0 <= e < 3)%Z -> e <> f -> (0 <= x < m_n m 3 e)%Z -> m_dL m f e x = Ok (wid m f e x)).
  { intros e x He Hne Hx. apply (wid_read m D f e x F Hf He). rewrite (mf_n_oth _ _ F) by auto. exact Hx. }
  destruct Hp as (Hi & Hj & Hk).
  destruct (pt_cases f ltac:(lia)) as [->|[->| ->]]; cbn [Z.eqb Pos.eqb perp0 perp1 pc]; rewrite !W by (auto; lia); reflexivity.
Qed.

Lemma div_cell_ok m D nrm s p : mfacts m D -> interior (m_n m 3) p ->
  div_cell m D nrm s p = Ok (row_step s (idx m D 3 p, div_items m D nrm p)).
Proof.
  intros F Hp. destruct p as [[i j] k]. unfold div_cell. rewrite fidx_gidx.
  destruct (pidx_spec m D _ F Hp) as [E0 _]. cbn [st_of] in E0. rewrite E0. cbn [bind].
  assert (Hface : forall s f, In f (zrange 0 (m_dim m)) -> div_face m D nrm (idx m D 3 (i, j, k)) i j k s f =
    Ok (row_step s (idx m D 3 (i, j, k),
      [mkIt f (st_of (i, j, k)) (idx m D f (i, j, k)) (face_area m nrm f (i, j, k));
       mkIt f (st_of (shift (i, j, k) f (-1))) (idx m D f (shift (i, j, k) f (-1))) (- face_area m nrm f (i, j, k))]))).
  { intros s' f Hf. apply zrange_In in Hf. pose proof (mf_dim _ _ F) as Hdim. unfold div_face.
    rewrite (div_kernel_ok m D) by auto. cbn [bind].
    pose proof (gidx_face m D f (i, j, k) 0 F Hf Hp ltac:(auto)) as G1. rewrite shift0 in G1 by lia.
    pose proof (gidx_face m D f (i, j, k) (-1) F Hf Hp ltac:(auto)) as G2.
    assert (Es : div_neighbor f i j k = st_of (shift (i, j, k) f (-1))).
    { unfold div_neighbor. destruct (pt_cases f ltac:(lia)) as [->|[->| ->]]; reflexivity. }
    rewrite Es. cbn [st_of] in G1. rewrite G1. cbn [bind]. rewrite G2. cbn [bind]. f_equal.
    unfold row_step, row_events, row_ghosts, ghost_items, log_set, put_mod. cbn [fst snd map filter it_col it_val it_f it_st st_of].
    destruct (idx m D f (i, j, k) =? -1)%Z; cbn [as_log as_mods];
      destruct (idx m D f (shift (i, j, k) f (-1)) =? -1)%Z; cbn [as_log as_mods]; rewrite <- app_assoc; reflexivity. }
  rewrite (foldM_rows _ _ _ Hface). f_equal. rewrite row_steps. unfold row_step, rows_log, div_items. f_equal.
  - f_equal. induction (zrange 0 (m_dim m)) as [|f t IH]; [reflexivity|]. cbn [map flat_map row_events fst snd app]. rewrite IH; [reflexivity|].
    intros s' f' Hf'. apply Hface. now right.
  - f_equal. induction (zrange 0 (m_dim m)) as [|f t IH]; [reflexivity|]. cbn [map flat_map]. rewrite IH by (intros s' f' Hf'; apply Hface; now right).
    unfold row_ghosts. cbn [fst snd]. rewrite <- map_app. unfold ghost_items. rewrite <- filter_app. reflexivity.
Qed.

Lemma divergence_rank_ok m D nrm r : mfacts m D -> (0 <= r < nranks D)%Z ->
  divergence_rank m D nrm r = Ok (fold_left row_step (div_rows m D nrm r) as_init).
Proof.
  intros F Hr. unfold divergence_rank, div_rows. apply (foldM_rows _ (fun p => (idx m D 3 p, div_items m D nrm p))).
  intros s p Hp. apply div_cell_ok; auto. eapply local_interior; eauto. apply (mf_dec _ _ F); auto.
Qed.

Lemma prows_NoDup m D (items : pt -> list item) : mfacts m D ->
  NoDup (map fst (all_rows (nranks D) (fun r => map (fun p => (idx m D 3 p, items p)) (local_points D 3 r)))).
Proof.
  intros F. unfold all_rows. pose proof (mf_dec _ _ F 3%Z (or_intror eq_refl)) as Hd.
  assert (E : flat_map (fun r => map (fun p : pt => (idx m D 3 p, items p)) (local_points D 3 r)) (zrange 0 (nranks D))
    = map (fun p => (idx m D 3 p, items p)) (field_layout D 3)).
  { unfold field_layout. induction (zrange 0 (nranks D)) as [|r t IH]; [reflexivity|]. cbn [flat_map]. rewrite map_app, IH. reflexivity. }
  match goal with |- NoDup (map fst ?l) => replace l with (map (fun p : pt => (idx m D 3 p, items p)) (field_layout D 3)) by (symmetry; exact E) end.
  rewrite map_map. cbn [fst].
  assert (G : forall l, NoDup l -> (forall p, In p l -> interior (m_n m 3) p) -> NoDup (map (idx m D 3) l)).
  { induction l as [|p t IH]; intros Hnd Hin; [constructor|]. cbn [map]. inversion Hnd as [|a b Ha Ht Ee]; subst. constructor.
    - intros Hi. apply in_map_iff in Hi. destruct Hi as (p' & Ei & Hi). apply pidx_inj in Ei; auto; [subst; contradiction|apply Hin; now right|apply Hin; now left].
    - apply IH; auto. intros p' Hi. apply Hin. now right. }
  apply G; [eapply field_layout_NoDup; eauto|]. intros p Hin. eapply field_layout_In; eauto.
Qed.

Lemma div_items_In m D nrm p it : In it (div_items m D nrm p) ->
  exists f s, (0 <= f < m_dim m)%Z /\ (s = 0 \/ s = -1)%Z /\ it_f it = f /\ ((0 <= f < 3)%Z -> it_st it = st_of (shift p f s) /\ it_col it = idx m D f (shift p f s)).
Proof.
  unfold div_items. intros H. apply in_flat_map in H. destruct H as (f & Hf & H). apply zrange_In in Hf. destruct H as [<-|[<-|[]]].
  - exists f, 0%Z. split; [exact Hf|]. split; [now left|]. split; [reflexivity|]. intros X. rewrite shift0 by exact X. split; reflexivity.
  - exists f, (-1)%Z. split; [exact Hf|]. split; [now right|]. split; [reflexivity|]. intros X. split; reflexivity.
Qed.

Lemma NoDup_app2 {A} (l1 l2 : list A) : NoDup l1 -> NoDup l2 -> (forall x, In x l1 -> ~ In x l2) -> NoDup (l1 ++ l2).
Proof. apply NoDup_app. Qed.

Lemma div_HI m D nrm r ri : mfacts m D -> periodic_min m 2 -> (0 <= r < nranks D)%Z -> In ri (div_rows m D nrm r) ->
  NoDup (filter (fun c => (0 <=? c)%Z) (map it_col (snd ri))) /\
  (forall it, In it (snd ri) -> it_col it = (-1)%Z \/ (0 <= it_col it < n_velocity m)%Z).
Proof.
  intros F Hmin Hr Hri. unfold div_rows in Hri. apply in_map_iff in Hri. destruct Hri as (p & <- & Hp). cbn [snd].
  pose proof (mf_dim _ _ F) as Hdim.
  assert (Hint : interior (m_n m 3) p) by (eapply local_interior; eauto; apply (mf_dec _ _ F); auto).
  set (L := flat_map (fun f => [(f, 0); (f, -1)]%Z) (zrange 0 (m_dim m))).
  assert (HL : forall f s, In (f, s) L -> (0 <= f < m_dim m)%Z /\ (s = 0 \/ s = -1)%Z).
  { intros f s H. apply in_flat_map in H. destruct H as (g & Hg & H). apply zrange_In in Hg. destruct H as [E|[E|[]]]; injection E as <- <-; auto. }
  assert (E : map it_col (div_items m D nrm p) = map (fun fs => idx m D (fst fs) (shift p (fst fs) (snd fs))) L).
  { unfold div_items, L. assert (Hz : forall f, In f (zrange 0 (m_dim m)) -> (0 <= f < 3)%Z) by (intros f Hf; apply zrange_In in Hf; lia). revert Hz.
    generalize (zrange 0 (m_dim m)). induction l as [|f t IH]; intros Hz; [reflexivity|]. cbn [flat_map map app it_col fst snd].
    rewrite IH by (intros; apply Hz; now right). rewrite shift0 by (apply Hz; now left). reflexivity. }
  rewrite E.
  assert (Col : forall f s, In (f, s) L -> idx m D f (shift p f s) = (-1)%Z \/
     (interior (m_n m f) (image (m_n m f) (shift p f s)) /\ idx m D f (shift p f s) = idx m D f (image (m_n m f) (shift p f s)) /\
       (interior (m_n m f) (shift p f s) \/ (s = (-1)%Z /\ pc p f = 0%Z /\ periodic_dir m f = true)))).
  { intros f s H. destruct (HL f s H) as [Hf Hs]. destruct (face_cases m D f p s F Hf Hint Hs) as [(I & Ei & O)|(Ei & _)].
    - right. split; auto. split; [unfold idx at 1; rewrite Ei; reflexivity|]. tauto.
    - left. unfold idx. rewrite Ei. reflexivity. }
  split.
  - apply NoDup_filter_map.
    + unfold L. apply NoDup_flat_map; [apply zrange_NoDup| |].
      * intros f _. repeat constructor; cbn; [intros [X|[]]; congruence|tauto].
      * intros f f' x _ _ A B. cbn in A, B. destruct A as [<-|[<-|[]]], B as [X|[X|[]]]; congruence.
    + intros [f s] [f' s'] H H' Hpos Ec. cbn [fst snd] in *.
      destruct (Col f s H) as [X|(I & X & O)]; [rewrite X in Hpos; discriminate|].
      destruct (Col f' s' H') as [X'|(I' & X' & O')]; [rewrite Ec, X' in Hpos; discriminate|].
      destruct (HL f s H) as [Hf Hs], (HL f' s' H') as [Hf' Hs'].
      rewrite X, X' in Ec. apply idx_inj in Ec; auto. destruct Ec as [<- Ec]. f_equal.
      assert (Ee : wrap (m_n m f f) (pc p f + s) = wrap (m_n m f f) (pc p f + s')).
      { assert (Y : forall z, wrap (m_n m f f) (pc p f + z) = pc (image (m_n m f) (shift p f z)) f).
        { intros z. rewrite pc_image by lia. rewrite pc_shift by lia. now rewrite Z.eqb_refl. }
        rewrite !Y, Ec. reflexivity. }
      rewrite interior_pc in Hint. pose proof (Hint f ltac:(lia)) as Hpf. pose proof (mf_n_own _ _ F f Hf) as Hown.
      pose proof (sizes_pos m D f f F (or_introl Hf) ltac:(lia)) as Hnf.
      assert (Hm : periodic_dir m f = true -> (2 <= m_n m f f)%Z) by (intros Hpd; now apply Hmin).
      assert (Rng : forall z, (interior (m_n m f) (shift p f z) \/ z = (-1)%Z /\ pc p f = 0%Z /\ periodic_dir m f = true) -> (0 <= pc p f + z < m_n m f f \/ (z = -1 /\ pc p f = 0 /\ 2 <= m_n m f f))%Z).
      { intros z [Hz|(-> & Hz & Hpd)]; [left|right; specialize (Hm Hpd); auto]. rewrite interior_pc in Hz. specialize (Hz f ltac:(lia)).
        rewrite pc_shift in Hz by lia. rewrite Z.eqb_refl in Hz. exact Hz. }
      pose proof (Rng s O) as R1. pose proof (Rng s' O') as R2.
      destruct (wrap_near (m_n m f f) (pc p f + s)) as [[? ?]|[[? ?]|[? ?]]]; try lia;
      destruct (wrap_near (m_n m f f) (pc p f + s')) as [[? ?]|[[? ?]|[? ?]]]; lia.
  - intros it Hit. assert (X : In (it_col it) (map it_col (div_items m D nrm p))) by now apply in_map.
    rewrite E in X. apply in_map_iff in X. destruct X as ([f s] & <- & H). cbn [fst snd]. destruct (HL f s H) as [Hf Hs].
    destruct (Col f s H) as [X|(I & X & O)]; [now left|]. right. rewrite X. now apply idx_range.
Qed.

Lemma div_HK m D nrm r : mfacts m D -> (0 <= r < nranks D)%Z -> NoDup (map fst (flat_map row_ghosts (div_rows m D nrm r))).
Proof.
  intros F Hr. pose proof (mf_dim _ _ F) as Hdim.
  assert (E : map fst (flat_map row_ghosts (div_rows m D nrm r)) =
    flat_map (fun p => map (fun it => (it_f it, it_st it)) (ghost_items (div_items m D nrm p))) (local_points D 3 r)).
  { unfold div_rows. induction (local_points D 3 r) as [|p t' IH']; [reflexivity|]. cbn [map flat_map]. rewrite map_app, IH'. f_equal.
    unfold row_ghosts. cbn [fst snd]. rewrite map_map. reflexivity. }
  rewrite E. apply NoDup_flat_map; [apply box_NoDup| |].
  - intros p Hp. assert (N : NoDup (map (fun it => (it_f it, it_st it)) (div_items m D nrm p))).
    { unfold div_items. rewrite flat_map_concat_map, concat_map, map_map, <- flat_map_concat_map. apply NoDup_flat_map; [apply zrange_NoDup| |].
      - intros f Hf. apply zrange_In in Hf. cbn [map it_f it_st]. repeat constructor; cbn; [|tauto]. intros [X|[]]. injection X as X.
        apply (f_equal (fun s => s)) in X. assert (Hq : shift p f (-1) = p) by (apply st_of_inj; destruct p as [[? ?] ?]; exact X).
        apply (f_equal (fun q => pc q f)) in Hq. rewrite pc_shift in Hq by lia. rewrite Z.eqb_refl in Hq. lia.
      - intros f f' x _ _ A B. cbn in A, B. destruct A as [<-|[<-|[]]], B as [X|[X|[]]]; congruence. }
    unfold ghost_items. revert N. generalize (div_items m D nrm p). induction l as [|a t IH]; intros N; [constructor|]. cbn [filter].
    cbn [map] in N. inversion N as [|x y Ha Ht Ex]; subst. destruct (it_col a =? -1)%Z; [|auto]. cbn [map]. constructor; [|auto].
    intros Hin. apply Ha. apply in_map_iff in Hin. destruct Hin as (b & Eb & Hb). apply filter_In in Hb. rewrite <- Eb.
    apply (in_map (fun it => (it_f it, it_st it))). tauto.
  - assert (Key : forall p k, In p (local_points D 3 r) -> In k (map (fun it => (it_f it, it_st it)) (ghost_items (div_items m D nrm p))) ->
      exists q, k = (fst k, st_of q) /\ (0 <= fst k < m_dim m)%Z /\ p = if (pc q (fst k) =? -1)%Z then shift q (fst k) 1 else q).
    { intros p k Hp Hk. assert (Hint : interior (m_n m 3) p) by (eapply local_interior; eauto; apply (mf_dec _ _ F); auto).
      apply in_map_iff in Hk. destruct Hk as (it & <- & Hit). apply filter_In in Hit. destruct Hit as [Hit Hc].
      apply div_items_In in Hit. destruct Hit as (f & s & Hf & Hs & Ef & Hst). destruct (Hst ltac:(lia)) as [Es Ec].
      cbn [fst]. rewrite Ef, Es. exists (shift p f s). split; auto. split; auto.
      destruct (face_cases m D f p s F Hf Hint Hs) as [(I & Ei & O)|(Ei & _ & _ & _ & _ & Eq & _)].
      - exfalso. pose proof (idx_range m D f _ F Hf I). assert (idx m D f (shift p f s) = idx m D f (image (m_n m f) (shift p f s))) by (unfold idx at 1; rewrite Ei; reflexivity). lia.
      - rewrite Eq. pose proof (sizes_pos m D f f F (or_introl Hf) ltac:(lia)). destruct Hs as [->| ->]; cbn [Z.eqb].
        + replace (m_n m f f =? -1)%Z with false by lia. now rewrite shift0 by lia.
        + cbn. apply pt_ext. intros e He. rewrite !pc_shift by lia. destruct (Z.eqb_spec e f) as [->|]; [rewrite Z.eqb_refl; lia|reflexivity]. }
    intros p p' k Hp Hp' A B. destruct (Key p k Hp A) as (q & Ek & Hf & ->). destruct (Key p' k Hp' B) as (q' & Ek' & _ & ->).
    rewrite Ek in Ek'. injection Ek' as Ek'. assert (q = q'). { apply st_of_inj. destruct q as [[? ?] ?], q' as [[? ?] ?]. cbn in *. congruence. }
    subst. reflexivity.
Qed.

Lemma face_value m D types values h B2 x u r f p s : mfacts m D -> bc_fits m types -> (0 <= r < nranks D)%Z ->
  boundary_after m D types values (h ++ [OpVals x]) B2 -> extends m D B2 x u ->
  (0 <= f < m_dim m)%Z -> In p (local_points D 3 r) -> (s = 0 \/ s = -1)%Z -> let q := shift p f s in
  (if (0 <=? idx m D f q)%Z then x (idx m D f q) else ghost_sum (bpts m D types values h) r f (st_of q) x) = u f q.
Proof.
  intros F Hb Hr HB Hext Hf Hp Hs q.
  assert (Hint : interior (m_n m 3) p) by (eapply local_interior; eauto; apply (mf_dec _ _ F); auto).
  assert (Hn : forall e, (0 <= e < 3)%Z -> (1 <= m_n m f e)%Z) by (intros; eapply sizes_pos; eauto).
  destruct (face_cases m D f p s F Hf Hint Hs) as [(I & Ei & O)|(Ei & Hper & L1 & L2 & L3 & L4 & L5)];
    [fold q in I, Ei, O|fold q in Ei, L3, L4, L5].
  - assert (E1 : idx m D f q = idx m D f (image (m_n m f) q)) by (unfold idx at 1; rewrite Ei; reflexivity).
    pose proof (idx_range m D f _ F Hf I). rewrite E1. replace (0 <=? idx m D f (image (m_n m f) q))%Z with true by lia.
    destruct (idx_spec m D f _ F Hf I) as [_ N]. destruct Hext as (X1 & X2 & X3). rewrite <- (X1 _ _ _ N).
    destruct O as [O|(O1 & O2 & O3 & _)]; [now rewrite image_interior by auto|]. symmetry. now apply X2.
  - replace (idx m D f q) with (-1)%Z by (unfold idx; now rewrite Ei). cbn [Z.leb Z.compare].
    eapply ghost_sum_ext; eauto. now rewrite L2.
Qed.

Theorem divergence_lemma m D types values nrm h0 h1 x B0 B1 B2 u :
  mfacts m D -> bc_fits m types -> has_ics h0 -> periodic_min m 2 ->
  boundary_after m D types values h0 B0 -> boundary_after m D types values (h0 ++ h1) B1 ->
  boundary_after m D types values (h0 ++ h1 ++ [OpVals x]) B2 -> extends m D B2 x u ->
  exists op c, createDivergence m D B0 nrm = Ok op /\ correction_mult m (nranks D) op B1 = Ok c /\
    forall id p, nthZ (field_layout D 3) id = Some p ->
      mat_mult (op_log op) (n_velocity m) x id + c id = net_flux m nrm u p.
Proof.
  intros F Hb Hics Hmin HB0 HB1 HB2 Hext.
  exists (op_of m D types values (div_rows m D nrm) h0), (vec_add_all (asm_corr (nranks D) (div_rows m D nrm) (bpts m D types values (h0 ++ h1)))).
  split; [|split].
  - unfold createDivergence. apply assemble; auto. intros r Hr. now apply divergence_rank_ok.
  - now apply correct.
  - intros id p Hid. pose proof (nthZ_In _ _ _ Hid) as Hin. pose proof (mf_dec _ _ F 3%Z (or_intror eq_refl)) as Hd3.
    pose proof (mf_dim _ _ F) as Hdim.
    apply (field_layout_In D (m_n m 3)) in Hin; auto.
    destruct (pidx_spec m D p F Hin) as [_ N].
    assert (id = idx m D 3 p) by (eapply nthZ_NoDup_inj; eauto; eapply field_layout_NoDup; eauto). subst id.
    destruct (owner_exists D (m_n m 3) 3 p Hd3 Hin) as (r & Hr & Hpl).
    assert (Hrow : In (idx m D 3 p, div_items m D nrm p) (div_rows m D nrm r)).
    { unfold div_rows. apply in_map_iff. exists p. auto. }
    rewrite (op_row m D types values (div_rows m D nrm) h0 h1 F Hb Hics x r _ _ (prows_NoDup m D (div_items m D nrm) F)
      ltac:(intros; now apply (div_HI m D nrm r0)) ltac:(intros; now apply div_HK) Hr Hrow).
    unfold div_items. rewrite sumR_flat_map. unfold net_flux, zsum. apply sumR_ext. intros f Hf. apply zrange_In in Hf.
    cbn [sumR it_val it_col it_f it_st].
    assert (HB2' : boundary_after m D types values ((h0 ++ h1) ++ [OpVals x]) B2) by (rewrite <- app_assoc; exact HB2).
    pose proof (face_value m D types values (h0 ++ h1) B2 x u r f p 0 F Hb Hr HB2' Hext Hf Hpl ltac:(auto)) as V0.
    pose proof (face_value m D types values (h0 ++ h1) B2 x u r f p (-1) F Hb Hr HB2' Hext Hf Hpl ltac:(auto)) as V1.
    cbv zeta in V0, V1. rewrite shift0 in V0 by lia. rewrite V0, V1. lra.
Qed.
