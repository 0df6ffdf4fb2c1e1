From Coq Require Import Permutation ZifyBool.
From Verif Require Import Prelude ZSum RSum TypesModel GridModel GridSpec GridProof MeshProof
  IndexModel IndexSpec IndexProof BoundaryModel BoundarySpec BoundaryProof OperatorModel OperatorSpec OperatorProof BStateProof LapProof DivProof.
Local Open Scope R_scope.

Definition delta (c : Z) (z : Z) : R := if (z =? c)%Z then 1 else 0.

Lemma entry_mult log N r c : (0 <= c < N)%Z -> entry log r c = mat_mult log N (delta c) r.
Proof.
  intros Hc. unfold mat_mult, zsum. rewrite (sumR_single _ _ c).
  - unfold delta. rewrite Z.eqb_refl. lra.
  - apply zrange_NoDup.
  - now apply zrange_In.
  - intros y _ Hne. unfold delta. replace (y =? c)%Z with false by lia. lra.
Qed.

(** * Logs without boundary corrections *)
Section Plain.
Variables (nr N : Z) (rows : Z -> list rowspec).
Hypothesis HR : NoDup (map fst (all_rows nr rows)).
Hypothesis HI : forall r ri, (0 <= r < nr)%Z -> In ri (rows r) ->
  NoDup (map it_col (snd ri)) /\ (forall it, In it (snd ri) -> (0 <= it_col it < N)%Z).

Lemma plain_row x r R items : (0 <= r < nr)%Z -> In (R, items) (rows r) ->
  mat_mult (asm_ins nr rows) N x R = sumR (fun it => it_val it * x (it_col it)) items.
Proof.
  intros Hr Hin.
  assert (A : asm_adds nr rows (fun _ => []) = []).
  { unfold asm_adds. induction (zrange 0 nr) as [|a t IH]; [reflexivity|]. cbn. exact IH. }
  assert (C : asm_corr nr rows (fun _ => []) = []).
  { unfold asm_corr. induction (zrange 0 nr) as [|a t IH]; [reflexivity|]. cbn. exact IH. }
  pose proof (assembly_row nr N rows (fun _ => []) (fun _ => []) HR) as H. rewrite A, C, app_nil_r in H.
  unfold vec_add_all in H. cbn [sumR] in H. rewrite <- (Rplus_0_r (mat_mult _ _ _ _)). rewrite (H) with (r := r) (items := items); auto.
  - apply sumR_ext. intros it Hit. destruct (HI r _ Hr Hin) as [_ B]. specialize (B it Hit). replace (0 <=? it_col it)%Z with true by lia. reflexivity.
  - intros r' ri Hr' Hri. destruct (HI r' ri Hr' Hri) as [B1 B2]. split; [|intros it Hit; right; auto].
    now apply NoDup_filter.
  - intros r' Hr'. assert (E : flat_map row_ghosts (rows r') = []).
    { assert (G : forall l, (forall ri, In ri l -> In ri (rows r')) -> flat_map row_ghosts l = []).
      { induction l as [|ri t IH]; intros Hl; [reflexivity|]. cbn [flat_map]. rewrite IH by (intros; apply Hl; now right).
        destruct (HI r' ri Hr' (Hl ri (or_introl eq_refl))) as [_ B]. unfold row_ghosts, ghost_items.
        replace (filter _ (snd ri)) with (@nil item); [reflexivity|]. symmetry. clear - B. induction (snd ri) as [|it t0 IH0]; [reflexivity|].
        cbn. pose proof (B it (or_introl eq_refl)). replace (it_col it =? -1)%Z with false by lia. apply IH0. intros; apply B; now right. }
      apply G. auto. }
    rewrite E. constructor.
  - intros r' kp _ [].
Qed.

Lemma plain_entry r R items c : (0 <= r < nr)%Z -> In (R, items) (rows r) -> (0 <= c < N)%Z ->
  entry (asm_ins nr rows) R c = sumR (fun it => it_val it * delta c (it_col it)) items.
Proof. intros Hr Hin Hc. rewrite (entry_mult _ N) by auto. eapply plain_row; eauto. Qed.
End Plain.

Lemma foldM_log {A} (f : list mev -> A -> res (list mev)) (row : A -> rowspec) l :
  (forall s a, In a l -> f s a = Ok (s ++ row_events (row a))) -> forall s,
  foldM f l s = Ok (s ++ rows_log (map row l)).
Proof.
  intros H. induction l as [|a t IH]; intros s; [cbn; now rewrite app_nil_r|]. cbn [foldM map]. rewrite H by (now left). cbn [bind].
  rewrite IH by (intros; apply H; now right). unfold rows_log. cbn [flat_map]. now rewrite app_assoc.
Qed.
Lemma foldM_log2 {A B} (f : B -> list mev -> A -> res (list mev)) (row : B -> A -> rowspec) (g : B -> list A) lb :
  (forall b s a, In b lb -> In a (g b) -> f b s a = Ok (s ++ row_events (row b a))) -> forall s,
  foldM (fun s b => foldM (f b) (g b) s) lb s = Ok (s ++ rows_log (flat_map (fun b => map (row b) (g b)) lb)).
Proof.
  intros H. induction lb as [|b t IH]; intros s; [cbn; now rewrite app_nil_r|]. cbn [foldM flat_map].
  rewrite (foldM_log (f b) (row b)) by (intros; apply H; auto; now left). cbn [bind].
  rewrite IH by (intros; apply H; auto; now right). unfold rows_log. rewrite flat_map_app_f. now rewrite app_assoc.
Qed.

(** * Pressure neighbours *)
Lemma gidx_frame3 m D q : mfacts m D -> in_frame (m_n m 3) q -> (n_outside (m_n m 3) q <= 1)%Z ->
  has_image (m_n m 3) (periodic_dir m) q = true -> interior (m_n m 3) (image (m_n m 3) q) /\
     gidx m D 3 (st_of q) = Ok (idx m D 3 (image (m_n m 3) q)).
Proof.
  intros F Hfr Ho H. destruct q as [[i j] k].
  destruct (natural_index_ghost_lemma true (m_dim m) (m_n m 3) (periodic_dir m) i j k (mf_sizes _ _ F 3%Z (or_intror eq_refl)) Hfr Ho) as (x & E & _ & B).
  specialize (B H). destruct (image (m_n m 3) (i, j, k)) as [[i' j'] k']. destruct B as [B1 B2]. split; auto.
  destruct (pidx_spec m D (i', j', k') F B1) as [E' _]. rewrite <- E'. rewrite !gidx_st.
  unfold getPackedGlobalIndex, getGlobalIndex. change (m_periodic m 0%Z) with (periodic_dir m). rewrite E, B2. reflexivity.
Qed.

Definition nextc (m : mesh) (f : Z) (p : pt) : pt := image (m_n m 3) (shift p f 1).

Lemma vcell m D f p : mfacts m D -> (0 <= f < m_dim m)%Z -> interior (m_n m f) p -> interior (m_n m 3) p.
Proof.
  intros F Hf Hp. pose proof (mf_dim _ _ F) as Hdim. rewrite interior_pc in *. intros e He. specialize (Hp e He).
  destruct (Z.eq_dec f e) as [<-|Hne]; [|rewrite (mf_n_oth _ _ F) in Hp; auto]. pose proof (mf_n_own _ _ F f Hf). destruct (periodic_dir m f); lia.
Qed.

Lemma next_ok m D f p : mfacts m D -> (0 <= f < m_dim m)%Z -> interior (m_n m f) p ->
  interior (m_n m 3) (nextc m f p) /\ gidx m D 3 (st_of (shift p f 1)) = Ok (idx m D 3 (nextc m f p)) /\
  (forall e, (0 <= e < 3)%Z -> pc (nextc m f p) e = if (e =? f)%Z then (if (pc p f + 1 =? m_n m 3 f)%Z then 0 else pc p f + 1)%Z else pc p e) /\
  ((pc p f + 1)%Z = m_n m 3 f -> periodic_dir m f = true).
Proof.
  intros F Hf Hp. pose proof (vcell m D f p F Hf Hp) as Hc. pose proof (mf_dim _ _ F) as Hdim. set (q := shift p f 1).
  rewrite interior_pc in Hp, Hc. pose proof (mf_n_own _ _ F f Hf) as Hown.
  assert (Od : pc q f = (pc p f + 1)%Z) by (unfold q; rewrite pc_shift by lia; now rewrite Z.eqb_refl).
  assert (O : forall e, (0 <= e < 3)%Z -> e <> f -> pc q e = pc p e).
  { intros e He Hne. unfold q. rewrite pc_shift by lia. replace (e =? f)%Z with false by lia. reflexivity. }
  pose proof (Hp f ltac:(lia)) as Hpf. pose proof (Hc f ltac:(lia)) as Hcf.
  assert (Per : (pc p f + 1)%Z = m_n m 3 f -> periodic_dir m f = true) by (destruct (periodic_dir m f); auto; lia).
  assert (Fr : in_frame (m_n m 3) q).
  { apply in_frame_pc. intros e He. destruct (Z.eq_dec e f) as [->|Hne]; [lia|]. rewrite O by auto. specialize (Hc e He). lia. }
  assert (No : (n_outside (m_n m 3) q <= 1)%Z).
  { rewrite (n_outside_one (m_n m 3) q f ltac:(lia)); [destruct (outside _ _); lia|]. intros e He Hne. rewrite O by auto. now apply Hc. }
  assert (Hi : has_image (m_n m 3) (periodic_dir m) q = true).
  { apply has_image_pc. intros e He Ho. destruct (Z.eq_dec e f) as [->|Hne]; [apply Per; unfold outside in Ho; lia|].
    rewrite O in Ho by auto. specialize (Hc e He). unfold outside in Ho. lia. }
  destruct (gidx_frame3 m D q F Fr No Hi) as [A B]. split; [exact A|]. split; [exact B|]. split; [|exact Per].
  intros e He. unfold nextc. fold q. rewrite pc_image by auto. unfold wrap. destruct (Z.eqb_spec e f) as [->|Hne].
  - rewrite Od. destruct (Z.eqb_spec (pc p f + 1) (m_n m 3 f)) as [->|]; [apply Z_mod_same_full|apply Z.mod_small; lia].
  - rewrite O by auto. apply Z.mod_small. now apply Hc.
Qed.

Lemma next_neq m D f p : mfacts m D -> (0 <= f < m_dim m)%Z -> periodic_min m 2 -> interior (m_n m f) p -> nextc m f p <> p.
Proof.
  intros F Hf Hmin Hp E. destruct (next_ok m D f p F Hf Hp) as (_ & _ & Hpc & Hper). pose proof (mf_dim _ _ F) as Hdim.
  specialize (Hpc f ltac:(lia)). rewrite Z.eqb_refl, E in Hpc. rewrite interior_pc in Hp. specialize (Hp f ltac:(lia)).
  destruct (Z.eqb_spec (pc p f + 1) (m_n m 3 f)) as [E1|]; [|lia]. specialize (Hper E1). pose proof (Hmin f f Hf Hf Hper).
  pose proof (mf_n_own _ _ F f Hf) as Ho. rewrite Hper in Ho. lia.
Qed.

(** * Gradient *)
Definition gw (m : mesh) (nrm : bool) (f : Z) (p : pt) : R := if nrm then 1 else 1 / wid m f f (pc p f).
Definition grad_items (m : mesh) (D : dec) (nrm : bool) (f : Z) (p : pt) : list item :=
  [mkIt 3 (st_of p) (idx m D 3 p) (- gw m nrm f p); mkIt 3 (st_of (shift p f 1)) (idx m D 3 (nextc m f p)) (gw m nrm f p)].
Definition grad_rows (m : mesh) (D : dec) (nrm : bool) (r : Z) : list rowspec :=
  flat_map (fun f => map (fun p => (idx m D f p, grad_items m D nrm f p)) (local_points D f r)) (zrange 0 (m_dim m)).

Lemma grad_row_ok m D nrm f s p : mfacts m D -> (0 <= f < m_dim m)%Z -> interior (m_n m f) p ->
  grad_row m D nrm f s p = Ok (s ++ row_events (idx m D f p, grad_items m D nrm f p)).
Proof.
  intros F Hf Hp. destruct (next_ok m D f p F Hf Hp) as (N1 & N2 & _). pose proof (mf_dim _ _ F) as Hdim.
  destruct (idx_spec m D f p F Hf Hp) as [E1 _]. destruct (pidx_spec m D p F (vcell m D f p F Hf Hp)) as [E2 _].
  assert (K : forall i j k, p = (i, j, k) -> grad_kernel m nrm f i j k = Ok (- gw m nrm f p, gw m nrm f p)).
  { intros i j k ->. unfold grad_kernel, gw. destruct nrm; [reflexivity|]. rewrite interior_pc in Hp. specialize (Hp f ltac:(lia)).
    destruct (mf_wid _ _ F f f (pc (i, j, k) f) Hf Hf ltac:(lia)) as [W _].
    destruct (pt_cases f ltac:(lia)) as [->|[->| ->]]; cbn [Z.eqb Pos.eqb pc] in *; rewrite W; reflexivity. }
  destruct p as [[i j] k]. unfold grad_row.
  assert (G : grad_neighbors f i j k = (st_of (i, j, k), st_of (shift (i, j, k) f 1))).
  { unfold grad_neighbors. destruct (pt_cases f ltac:(lia)) as [->|[->| ->]]; reflexivity. }
  rewrite G. rewrite (K i j k eq_refl). cbn [bind]. rewrite E1. cbn [bind]. rewrite E2. cbn [bind]. rewrite N2. reflexivity.
Qed.

Lemma createGradient_ok m D nrm : mfacts m D -> createGradient m D nrm = Ok (asm_ins (nranks D) (grad_rows m D nrm)).
Proof.
  intros F. unfold createGradient. rewrite (mapM_ok _ (fun r => rows_log (grad_rows m D nrm r))).
  - cbn [bind]. unfold asm_ins. now rewrite flat_map_concat_map.
  - intros r Hr. apply zrange_In in Hr.
    rewrite (foldM_log2 (grad_row m D nrm) (fun f p => (idx m D f p, grad_items m D nrm f p)) (fun f => local_points D f r)); [reflexivity|].
    intros f s p Hf Hp. apply zrange_In in Hf. apply grad_row_ok; auto. eapply local_interior; eauto. apply (mf_dec _ _ F); auto.
Qed.

Lemma grad_HI m D nrm r ri : mfacts m D -> periodic_min m 2 -> (0 <= r < nranks D)%Z -> In ri (grad_rows m D nrm r) ->
  NoDup (map it_col (snd ri)) /\ (forall it, In it (snd ri) -> (0 <= it_col it < n_pressure m)%Z).
Proof.
  intros F Hmin Hr Hri. unfold grad_rows in Hri. apply in_flat_map in Hri. destruct Hri as (f & Hf & Hri). apply zrange_In in Hf.
  apply in_map_iff in Hri. destruct Hri as (p & <- & Hp). cbn [snd].
  assert (Hint : interior (m_n m f) p) by (eapply local_interior; eauto; apply (mf_dec _ _ F); auto).
  pose proof (vcell m D f p F Hf Hint) as Hc. destruct (next_ok m D f p F Hf Hint) as (N1 & _).
  unfold grad_items. cbn [map it_col]. split.
  - repeat constructor; cbn; [|tauto]. intros [E|[]]. apply pidx_inj in E; auto. exact (next_neq m D f p F Hf Hmin Hint E).
  - intros it [<-|[<-|[]]]; cbn [it_col]; now apply pidx_range.
Qed.

Lemma velocity_row m D id f p : mfacts m D -> nthZ (packed_layout (m_dim m) D) id = Some (f, p) ->
  (0 <= f < m_dim m)%Z /\ interior (m_n m f) p /\ id = idx m D f p /\
  exists r, (0 <= r < nranks D)%Z /\ In p (local_points D f r).
Proof.
  intros F Hid. assert (DA : dec_all (m_dim m) D (m_n m)) by (intros g Hg; apply (mf_dec _ _ F); auto).
  pose proof (nthZ_In _ _ _ Hid) as Hin. apply (packed_layout_In _ _ (m_n m)) in Hin; auto. destruct Hin as [Hf Hp].
  destruct (idx_spec m D f p F Hf Hp) as [_ N]. split; auto. split; auto. split.
  - eapply nthZ_NoDup_inj; eauto. eapply packed_layout_NoDup; eauto.
  - apply (owner_exists D (m_n m f) f p); auto.
Qed.
Lemma pressure_row m D id p : mfacts m D -> nthZ (field_layout D 3) id = Some p ->
  interior (m_n m 3) p /\ id = idx m D 3 p /\ exists r, (0 <= r < nranks D)%Z /\ In p (local_points D 3 r).
Proof.
  intros F Hid. pose proof (mf_dec _ _ F 3%Z (or_intror eq_refl)) as Hd3. pose proof (nthZ_In _ _ _ Hid) as Hin.
  apply (field_layout_In D (m_n m 3)) in Hin; auto. destruct (pidx_spec m D p F Hin) as [_ N]. split; auto. split.
  - eapply nthZ_NoDup_inj; eauto. eapply field_layout_NoDup; eauto.
  - now apply (owner_exists D (m_n m 3) 3 p).
Qed.

Theorem gradient_lemma m D nrm y P : mfacts m D -> periodic_min m 2 -> pressure_values D y P ->
  exists g, createGradient m D nrm = Ok g /\
    forall id f p, nthZ (packed_layout (m_dim m) D) id = Some (f, p) ->
      mat_mult g (n_pressure m) y id = gradient_at m nrm P f p.
Proof.
  intros F Hmin HP. eexists. split; [now apply createGradient_ok|]. intros id f p Hid.
  destruct (velocity_row m D id f p F Hid) as (Hf & Hp & -> & r & Hr & Hpl).
  assert (Hrow : In (idx m D f p, grad_items m D nrm f p) (grad_rows m D nrm r)).
  { apply in_flat_map. exists f. split; [now apply zrange_In|]. apply in_map_iff. exists p. auto. }
  rewrite (plain_row (nranks D) (n_pressure m) (grad_rows m D nrm) (vrows_NoDup m D (grad_items m D nrm) F) (fun r ri => grad_HI m D nrm r ri F Hmin) y r _ _ Hr Hrow).
  unfold grad_items. cbn [sumR it_val it_col]. destruct (next_ok m D f p F Hf Hp) as (N1 & _).
  pose proof (vcell m D f p F Hf Hp) as Hc.
  destruct (pidx_spec m D p F Hc) as [_ A]. destruct (pidx_spec m D _ F N1) as [_ B].
  rewrite <- (HP _ _ A), <- (HP _ _ B). unfold gradient_at, gw. fold (nextc m f p). destruct nrm; [lra|].
  unfold Rdiv. lra.
Qed.

(** Entry of the gradient. *)
Definition indicator (b : bool) : R := if b then 1 else 0.
Definition pt_eqb (p q : pt) : bool := let '(i, j, k) := p in let '(i', j', k') := q in (i =? i')%Z && (j =? j')%Z && (k =? k')%Z.
Lemma pt_eqb_spec p q : pt_eqb p q = true <-> p = q.
Proof.
  destruct p as [[i j] k], q as [[i' j'] k']. cbn. split; intros H; [|injection H as -> -> ->; lia].
  assert (i = i' /\ j = j' /\ k = k')%Z as (-> & -> & ->) by lia. reflexivity.
Qed.
Lemma delta_pidx m D p q : mfacts m D -> interior (m_n m 3) p -> interior (m_n m 3) q ->
  delta (idx m D 3 p) (idx m D 3 q) = indicator (pt_eqb p q).
Proof.
  intros F Hp Hq. unfold delta, indicator. destruct (Z.eqb_spec (idx m D 3 q) (idx m D 3 p)) as [E|E].
  - apply pidx_inj in E; auto. subst. now rewrite (proj2 (pt_eqb_spec p p) eq_refl).
  - destruct (pt_eqb p q) eqn:Eq; [|reflexivity]. apply pt_eqb_spec in Eq. subst. contradiction.
Qed.
Lemma grad_entry m D nrm f q p : mfacts m D -> periodic_min m 2 -> (0 <= f < m_dim m)%Z -> interior (m_n m f) q -> interior (m_n m 3) p ->
  entry (asm_ins (nranks D) (grad_rows m D nrm)) (idx m D f q) (idx m D 3 p)
  = gw m nrm f q * (indicator (pt_eqb p (nextc m f q)) - indicator (pt_eqb p q)).
Proof.
  intros F Hmin Hf Hq Hp. destruct (owner_exists D (m_n m f) f q) as (r & Hr & Hpl); auto. { apply (mf_dec _ _ F); auto. }
  assert (Hrow : In (idx m D f q, grad_items m D nrm f q) (grad_rows m D nrm r)).
  { apply in_flat_map. exists f. split; [now apply zrange_In|]. apply in_map_iff. exists q. auto. }
  rewrite (plain_entry (nranks D) (n_pressure m) (grad_rows m D nrm) (vrows_NoDup m D (grad_items m D nrm) F) (fun r ri => grad_HI m D nrm r ri F Hmin) r _ _ _ Hr Hrow)
    by now apply pidx_range.
  unfold grad_items. cbn [sumR it_val it_col]. destruct (next_ok m D f q F Hf Hq) as (N1 & _).
  rewrite !delta_pidx; auto; [lra|]. exact (vcell m D f q F Hf Hq).
Qed.

(** * Diagonal operators *)
Definition diag_rows (m : mesh) (D : dec) (k : Z -> pt -> R) (r : Z) : list rowspec :=
  flat_map (fun f => map (fun p => (idx m D f p, [mkIt f (st_of p) (idx m D f p) (k f p)])) (local_points D f r)) (zrange 0 (m_dim m)).

Lemma createDiag_ok m D kernel k : mfacts m D ->
  (forall f p, (0 <= f < m_dim m)%Z -> interior (m_n m f) p -> kernel f p = Ok (k f p)) ->
  createDiagMatrix m D kernel = Ok (asm_ins (nranks D) (diag_rows m D k)).
Proof.
  intros F Hk. unfold createDiagMatrix. rewrite (mapM_ok _ (fun r => rows_log (diag_rows m D k r))).
  - cbn [bind]. unfold asm_ins. now rewrite flat_map_concat_map.
  - intros r Hr. apply zrange_In in Hr.
    rewrite (foldM_log2 (fun f log p => let '(i, j, k0) := p in do idx <- gidx m D f (mkSt k0 j i 1); do v <- kernel f p; Ok (log ++ [mkEv idx idx v INSERT_VALUES]))
      (fun f p => (idx m D f p, [mkIt f (st_of p) (idx m D f p) (k f p)])) (fun f => local_points D f r)); [reflexivity|].
    intros f s p Hf Hp. apply zrange_In in Hf. apply local_interior with (n := m_n m f) in Hp; auto; [|apply (mf_dec _ _ F); auto].
    destruct (idx_spec m D f p F Hf Hp) as [E _]. specialize (Hk f p Hf Hp). destruct p as [[i j] k0].
    replace (gidx m D f (mkSt k0 j i 1)) with (gidx m D f (st_of (i, j, k0))) by reflexivity. rewrite E. cbn [bind]. rewrite Hk. reflexivity.
Qed.

Lemma diag_lemma m D k : mfacts m D -> let log := asm_ins (nranks D) (diag_rows m D k) in
  (forall x id f p, nthZ (packed_layout (m_dim m) D) id = Some (f, p) -> mat_mult log (n_velocity m) x id = k f p * x id) /\
  (forall id f p c, nthZ (packed_layout (m_dim m) D) id = Some (f, p) -> (0 <= c < n_velocity m)%Z ->
     entry log id c = if (id =? c)%Z then k f p else 0).
Proof.
  intros F log.
  assert (HI : forall r ri, (0 <= r < nranks D)%Z -> In ri (diag_rows m D k r) ->
    NoDup (map it_col (snd ri)) /\ (forall it, In it (snd ri) -> (0 <= it_col it < n_velocity m)%Z)).
  { intros r ri Hr Hri. unfold diag_rows in Hri. apply in_flat_map in Hri. destruct Hri as (f & Hf & Hri). apply zrange_In in Hf.
    apply in_map_iff in Hri. destruct Hri as (p & <- & Hp). cbn [snd map it_col].
    assert (Hint : interior (m_n m f) p) by (eapply local_interior; eauto; apply (mf_dec _ _ F); auto).
    split; [repeat constructor; tauto|]. intros it [<-|[]]. now apply idx_range. }
  assert (Rw : forall id f p, nthZ (packed_layout (m_dim m) D) id = Some (f, p) -> exists r, (0 <= r < nranks D)%Z /\
     In (id, [mkIt f (st_of p) id (k f p)]) (diag_rows m D k r)).
  { intros id f p Hid. destruct (velocity_row m D id f p F Hid) as (Hf & Hp & -> & r & Hr & Hpl). exists r. split; auto.
    apply in_flat_map. exists f. split; [now apply zrange_In|]. apply in_map_iff. exists p. auto. }
  assert (ND : NoDup (map fst (all_rows (nranks D) (diag_rows m D k)))) by exact (vrows_NoDup m D (fun f p => [mkIt f (st_of p) (idx m D f p) (k f p)]) F).
  split.
  - intros x id f p Hid. destruct (Rw id f p Hid) as (r & Hr & Hin). unfold log.
    rewrite (plain_row (nranks D) (n_velocity m) (diag_rows m D k) ND HI x r _ _ Hr Hin). cbn. lra.
  - intros id f p c Hid Hc. destruct (Rw id f p Hid) as (r & Hr & Hin). unfold log.
    rewrite (plain_entry (nranks D) (n_velocity m) (diag_rows m D k) ND HI r _ _ c Hr Hin Hc). cbn. unfold delta. destruct (id =? c)%Z; lra.
Qed.

Lemma area_kernel_ok m D f p : mfacts m D -> (0 <= f < m_dim m)%Z -> interior (m_n m f) p -> area_kernel m f p = Ok (face_area m false f p).
Proof.
  intros F Hf Hp. destruct p as [[i j] k]. pose proof (div_kernel_ok m D false f i j k F Hf (vcell m D f _ F Hf Hp)) as H.
  unfold div_kernel in H. unfold area_kernel. exact H.
Qed.
Lemma width_kernel_ok m D f p : mfacts m D -> (0 <= f < m_dim m)%Z -> interior (m_n m f) p -> width_kernel m f p = Ok (wid m f f (pc p f)).
Proof.
  intros F Hf Hp. pose proof (mf_dim _ _ F) as Hdim. rewrite interior_pc in Hp. specialize (Hp f ltac:(lia)).
  destruct (mf_wid _ _ F f f (pc p f) Hf Hf ltac:(lia)) as [W _]. destruct p as [[i j] k]. unfold width_kernel.
  destruct (pt_cases f ltac:(lia)) as [->|[->| ->]]; exact W.
Qed.
Lemma face_area_pos m D nrm f p : mfacts m D -> (0 <= f < m_dim m)%Z -> interior (m_n m 3) p -> 0 < face_area m nrm f p.
Proof.
  intros F Hf Hp. unfold face_area. destruct nrm; [lra|]. pose proof (mf_dim _ _ F) as Hdim. rewrite interior_pc in Hp.
  assert (W : forall e, (0 <= e < 3)%Z -> e <> f -> 0 < wid m f e (pc p e)).
  { intros e He Hne. specialize (Hp e He). destruct (Z.eq_dec e 2) as [->|].
    - destruct Hdim as [H2|H3].
      + destruct (mf_flat _ _ F f (or_introl Hf) H2) as (_ & _ & W). rewrite <- (mf_n_oth _ _ F f 2) in Hp by (auto; lia).
        destruct (mf_flat _ _ F f (or_introl Hf) H2) as (E & _ & _). replace (pc p 2) with 0%Z by lia. rewrite W. lra.
      + apply (mf_wid _ _ F f 2 (pc p 2) Hf ltac:(lia)). rewrite (mf_n_oth _ _ F) by (auto; lia). lia.
    - apply (mf_wid _ _ F f e (pc p e) Hf ltac:(lia)). rewrite (mf_n_oth _ _ F) by (auto; lia). lia. }
  destruct (pt_cases f ltac:(lia)) as [->|[->| ->]]; cbn [perp0 perp1 Z.eqb Pos.eqb]; apply Rmult_lt_0_compat; apply W; lia.
Qed.
Lemma own_width_pos m D f p : mfacts m D -> (0 <= f < m_dim m)%Z -> interior (m_n m f) p -> 0 < wid m f f (pc p f).
Proof.
  intros F Hf Hp. pose proof (mf_dim _ _ F) as Hdim. rewrite interior_pc in Hp. specialize (Hp f ltac:(lia)).
  apply (mf_wid _ _ F f f (pc p f) Hf Hf ltac:(lia)).
Qed.
