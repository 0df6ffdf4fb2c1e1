From Coq Require Import Permutation ZifyBool.
From Verif Require Import Prelude ZSum RSum TypesModel GridModel GridSpec GridProof MeshProof
  IndexModel IndexSpec IndexProof BoundaryModel BoundarySpec BoundaryProof OperatorModel OperatorSpec OperatorProof BStateProof LapProof DivProof GradProof.
Local Open Scope R_scope.

(** * Entries of operators with boundary points *)
Definition ghost_lin (pts : list (Z * (stencil * ginfo))) (f : Z) (s : stencil) (c : Z) : R :=
  sumR (fun fkp => if key_eqb (f, s) (fst fkp, fst (snd fkp)) then gi_a0 (snd (snd fkp)) * delta c (gi_tid (snd (snd fkp))) else 0) pts.

Lemma op_entry m D types values rows h0 r Row items c : mfacts m D -> bc_fits m types -> has_ics h0 ->
  NoDup (map fst (all_rows (nranks D) rows)) ->
  (forall r ri, (0 <= r < nranks D)%Z -> In ri (rows r) ->
     NoDup (filter (fun c => (0 <=? c)%Z) (map it_col (snd ri))) /\
     (forall it, In it (snd ri) -> it_col it = (-1)%Z \/ (0 <= it_col it < n_velocity m)%Z)) ->
  (forall r, (0 <= r < nranks D)%Z -> NoDup (map fst (flat_map row_ghosts (rows r)))) ->
  (0 <= r < nranks D)%Z -> In (Row, items) (rows r) -> (0 <= c < n_velocity m)%Z ->
  entry (op_log (op_of m D types values rows h0)) Row c
  = sumR (fun it => it_val it * (if (0 <=? it_col it)%Z then delta c (it_col it)
                                 else ghost_lin (bpts m D types values h0 r) (it_f it) (it_st it) c)) items.
Proof.
  intros F Hb Hics HR HI HK Hr Hin Hc. rewrite (entry_mult _ (n_velocity m)) by auto.
  pose proof (op_row m D types values rows h0 [] F Hb Hics (delta c) r Row items HR HI HK Hr Hin) as E1.
  pose proof (op_row m D types values rows h0 [] F Hb Hics (fun _ => 0) r Row items HR HI HK Hr Hin) as E2.
  rewrite !app_nil_r in *.
  assert (Z0 : mat_mult (op_log (op_of m D types values rows h0)) (n_velocity m) (fun _ => 0) Row = 0).
  { unfold mat_mult, zsum. apply sumR_zero. intros; lra. }
  rewrite Z0 in E2. rewrite Rplus_0_l in E2. rewrite E2 in E1.
  match goal with H : ?a + ?b = ?d |- _ => assert (X : a = d - b) by lra end. rewrite X. rewrite <- sumR_minus. apply sumR_ext.
  intros it _. destruct (0 <=? it_col it)%Z; [lra|].
  assert (G : ghost_sum (bpts m D types values h0) r (it_f it) (it_st it) (delta c) - ghost_sum (bpts m D types values h0) r (it_f it) (it_st it) (fun _ => 0)
     = ghost_lin (bpts m D types values h0 r) (it_f it) (it_st it) c).
  { unfold ghost_sum, ghost_lin. rewrite <- sumR_minus. apply sumR_ext. intros fkp _. destruct (key_eqb _ _); lra. }
  rewrite <- G. lra.
Qed.

Definition a0_of (types : Z -> Z -> bctype) (f loc : Z) : R :=
  match types f loc with NEUMANN => 1 | _ => if (loc_dir loc =? f)%Z then 0 else -1 end.

Lemma ghost_lin_value m D types values h r f loc q c : mfacts m D -> bc_fits m types -> has_ics h -> (0 <= r < nranks D)%Z ->
  (0 <= f < m_dim m)%Z -> (0 <= loc < m_dim m * 2)%Z -> periodic_dir m (loc_dir loc) = false ->
  is_ghost (m_n m f) loc q -> In (inner_of (m_n m f) loc q) (local_points D f r) ->
  ghost_lin (bpts m D types values h r) f (st_of q) c = a0_of types f loc * delta c (idx m D f (inner_of (m_n m f) loc q)).
Proof.
  intros F Hb Hics Hr Hf Hl Hper G L. destruct (Hb f loc Hf Hl) as [Hnb Hp].
  assert (Hne : types f loc <> PERIODIC) by (intros E; apply Hp in E; congruence).
  assert (Hk : In (st_of q) (map fst (gl_points m D r f loc))) by (apply gl_points_In; auto).
  apply in_map_iff in Hk. destruct Hk as ([s p] & E & Hk). cbn in E. subst s.
  pose proof (bpts_intro m D types values h r f loc q p Hf Hl Hne Hk) as Hin.
  unfold ghost_lin.
  etransitivity. { exact (sumR_key (fun fkp => (fst fkp, fst (snd fkp)))
    (fun fkp => gi_a0 (snd (snd fkp)) * delta c (gi_tid (snd (snd fkp)))) _ _ (bpts_NoDup m D types values h r F Hr) Hin). }
  cbn [snd]. rewrite a0_pure by auto. rewrite (geom_tid _ _ (psteps_geom _ _ _)).
  destruct (gl_points_info m D r f loc q p F Hf Hl Hr Hk) as (_ & E & _). rewrite E. reflexivity.
Qed.

Lemma delta_idx m D f p g q : mfacts m D -> (0 <= f < m_dim m)%Z -> (0 <= g < m_dim m)%Z -> interior (m_n m f) p -> interior (m_n m g) q ->
  delta (idx m D f p) (idx m D g q) = indicator ((g =? f)%Z && pt_eqb q p).
Proof.
  intros F Hf Hg Hp Hq. unfold delta, indicator. destruct (Z.eqb_spec (idx m D g q) (idx m D f p)) as [E|E].
  - apply idx_inj in E; auto. destruct E as [-> ->]. rewrite Z.eqb_refl. now rewrite (proj2 (pt_eqb_spec p p) eq_refl).
  - destruct (Z.eqb_spec g f) as [->|]; [|reflexivity]. cbn [andb]. destruct (pt_eqb q p) eqn:Eq; [|reflexivity]. apply pt_eqb_spec in Eq. subst. contradiction.
Qed.

(** * Entries of the divergence *)
Lemma prev_next m D f p q : mfacts m D -> (0 <= f < m_dim m)%Z -> interior (m_n m 3) p -> interior (m_n m f) q ->
  (interior (m_n m f) (shift p f (-1)) \/ (pc p f = 0%Z /\ periodic_dir m f = true)) ->
  (image (m_n m f) (shift p f (-1)) = q <-> p = nextc m f q).
Proof.
  intros F Hf Hp Hq Hor. pose proof (mf_dim _ _ F) as Hdim. destruct (next_ok m D f q F Hf Hq) as (_ & _ & Hpc & Hper).
  pose proof (mf_n_own _ _ F f Hf) as Hown. rewrite !interior_pc in *.
  pose proof (Hp f ltac:(lia)) as Hpf. pose proof (Hq f ltac:(lia)) as Hqf.
  assert (W : wrap (m_n m f f) (pc p f + -1) = if (pc p f =? 0)%Z then (m_n m f f - 1)%Z else (pc p f - 1)%Z).
  { assert (Hle : (pc p f <> 0 -> pc p f - 1 < m_n m f f)%Z) by (destruct (periodic_dir m f); lia).
    destruct (wrap_near (m_n m f f) (pc p f + -1)) as [[? ->]|[[? ->]|[? ->]]]; destruct (Z.eqb_spec (pc p f) 0); lia. }
  split; intros E.
  - apply pt_ext. intros e He. rewrite Hpc by auto. subst q. rewrite !pc_image by lia. rewrite !pc_shift by lia.
    destruct (Z.eqb_spec e f) as [->|Hne].
    + rewrite Z.eqb_refl. rewrite W. destruct (Z.eqb_spec (pc p f) 0) as [E0|E0].
      * destruct Hor as [Hor|[_ Hor]]; [specialize (Hor f ltac:(lia)); rewrite pc_shift in Hor by lia; rewrite Z.eqb_refl in Hor; lia|].
        rewrite Hor in Hown. replace (m_n m f f - 1 + 1 =? m_n m 3 f)%Z with true by lia. lia.
      * replace (pc p f - 1 + 1 =? m_n m 3 f)%Z with false by lia. lia.
    + assert (0 <= pc p e < m_n m f e)%Z by (rewrite (mf_n_oth _ _ F) by auto; now apply Hp). unfold wrap. rewrite Z.mod_small; auto.
  - apply pt_ext. intros e He. rewrite pc_image by lia. rewrite pc_shift by lia.
    assert (Ee : pc p e = pc (nextc m f q) e) by now rewrite <- E. rewrite Hpc in Ee by auto. destruct (Z.eqb_spec e f) as [->|Hne].
    + rewrite W. destruct (Z.eqb_spec (pc q f + 1) (m_n m 3 f)) as [E1|E1].
      * rewrite (Hper E1) in Hown. replace (pc p f =? 0)%Z with true by lia. lia.
      * replace (pc p f =? 0)%Z with false by lia. lia.
    + rewrite Ee. unfold wrap. apply Z.mod_small. now apply Hq.
Qed.

Lemma div_entry m D types values nrm h0 f q p : mfacts m D -> bc_fits m types -> has_ics h0 -> periodic_min m 2 ->
  (0 <= f < m_dim m)%Z -> types f (2 * f)%Z <> NEUMANN -> types f (2 * f + 1)%Z <> NEUMANN ->
  interior (m_n m f) q -> interior (m_n m 3) p ->
  entry (op_log (op_of m D types values (div_rows m D nrm) h0)) (idx m D 3 p) (idx m D f q)
  = face_area m nrm f p * (indicator (pt_eqb p q) - indicator (pt_eqb p (nextc m f q))).
Proof.
  intros F Hb Hics Hmin Hf T0 T1 Hq Hp. pose proof (mf_dim _ _ F) as Hdim.
  destruct (owner_exists D (m_n m 3) 3 p) as (r & Hr & Hpl); auto. { apply (mf_dec _ _ F); auto. }
  assert (Hrow : In (idx m D 3 p, div_items m D nrm p) (div_rows m D nrm r)).
  { unfold div_rows. apply in_map_iff. exists p. auto. }
  rewrite (op_entry m D types values (div_rows m D nrm) h0 r _ _ _ F Hb Hics (prows_NoDup m D (div_items m D nrm) F)
      ltac:(intros; now apply (div_HI m D nrm r0)) ltac:(intros; now apply div_HK) Hr Hrow) by now apply idx_range.
  unfold div_items. rewrite sumR_flat_map.
  assert (Item : forall g s, (0 <= g < m_dim m)%Z -> (s = 0 \/ s = -1)%Z ->
     (if (0 <=? idx m D g (shift p g s))%Z then delta (idx m D f q) (idx m D g (shift p g s))
      else ghost_lin (bpts m D types values h0 r) g (st_of (shift p g s)) (idx m D f q))
     = if (g =? f)%Z then (if (s =? 0)%Z then indicator (pt_eqb p q) else indicator (pt_eqb p (nextc m f q))) else 0).
  { intros g s Hg Hs. destruct (face_cases m D g p s F Hg Hp Hs) as [(I & Ei & O)|(Ei & Hper & L1 & L2 & L3 & L4 & L5)].
    - assert (E1 : idx m D g (shift p g s) = idx m D g (image (m_n m g) (shift p g s))) by (unfold idx at 1; rewrite Ei; reflexivity).
      pose proof (idx_range m D g _ F Hg I). rewrite E1. replace (0 <=? idx m D g (image (m_n m g) (shift p g s)))%Z with true by lia.
      rewrite delta_idx by auto. destruct (Z.eqb_spec g f) as [->|]; [|reflexivity]. cbn [andb].
      destruct Hs as [->| ->]; cbn [Z.eqb].
      + rewrite shift0 in * by lia. destruct O as [O|(_ & _ & _ & O & _)]; [|discriminate]. rewrite image_interior by (auto; intros; eapply sizes_pos; eauto). reflexivity.
      + f_equal. assert (Hor : interior (m_n m f) (shift p f (-1)) \/ (pc p f = 0%Z /\ periodic_dir m f = true)) by tauto.
        pose proof (prev_next m D f p q F Hf Hp Hq Hor) as PN.
        destruct (pt_eqb (image (m_n m f) (shift p f (-1))) q) eqn:A, (pt_eqb p (nextc m f q)) eqn:B; auto.
        * apply pt_eqb_spec in A. apply PN in A. apply pt_eqb_spec in A. congruence.
        * apply pt_eqb_spec in B. apply PN in B. apply pt_eqb_spec in B. congruence.
    - replace (idx m D g (shift p g s)) with (-1)%Z by (unfold idx; now rewrite Ei). cbn [Z.leb Z.compare].
      set (loc := (2 * g + (if (s =? 0)%Z then 1 else 0))%Z) in *.
      rewrite (ghost_lin_value m D types values h0 r g loc) by (auto; rewrite L2; exact Hper).
      assert (Hin : interior (m_n m g) (inner_of (m_n m g) loc (shift p g s))) by (eapply local_interior; [apply (mf_dec _ _ F g); auto| |apply (L5 r); auto]; auto).
      rewrite delta_idx by auto. destruct (Z.eqb_spec g f) as [->|]; [|cbn; lra].
      assert (A0 : a0_of types f loc = 0).
      { unfold a0_of. rewrite L2, Z.eqb_refl. destruct (types f loc) eqn:E; auto. exfalso. unfold loc in E. destruct Hs as [Hs|Hs]; rewrite Hs in E; cbn [Z.eqb] in E; [now apply T1|apply T0; rewrite Z.add_0_r in E; exact E]. }
      clearbody loc.
      rewrite A0. rewrite Rmult_0_l. rewrite interior_pc in Hq. pose proof (Hq f ltac:(lia)) as Hqf.
      destruct Hs as [->| ->]; cbn [Z.eqb] in *.
      + rewrite shift0 in L4 by lia. destruct (pt_eqb p q) eqn:A; [|reflexivity]. apply pt_eqb_spec in A. subst. lia.
      + rewrite pc_shift in L4 by lia. rewrite Z.eqb_refl in L4. destruct (pt_eqb p (nextc m f q)) eqn:A; [|reflexivity]. apply pt_eqb_spec in A.
        destruct (next_ok m D f q F Hf ltac:(now rewrite interior_pc)) as (_ & _ & Hpc & Hp1). specialize (Hpc f ltac:(lia)). rewrite Z.eqb_refl in Hpc.
        rewrite <- A in Hpc. destruct (Z.eqb_spec (pc q f + 1) (m_n m 3 f)) as [E1|]; [rewrite (Hp1 E1) in Hper; discriminate|lia]. }
  rewrite (sumR_ext _ (fun g => if (g =? f)%Z then face_area m nrm f p * (indicator (pt_eqb p q) - indicator (pt_eqb p (nextc m f q))) else 0)).
  2: { intros g Hg. apply zrange_In in Hg. cbn [sumR it_val it_col it_f it_st].
       pose proof (Item g 0%Z Hg (or_introl eq_refl)) as I0. rewrite shift0 in I0 by lia. rewrite I0. rewrite (Item g (-1)%Z Hg (or_intror eq_refl)).
       cbn [Z.eqb]. destruct (Z.eqb_spec g f) as [->|]; lra. }
  rewrite (sumR_single _ _ f); [now rewrite Z.eqb_refl|apply zrange_NoDup|now apply zrange_In|].
  intros g _ Hne. replace (g =? f)%Z with false by lia. reflexivity.
Qed.

Lemma face_area_next m D nrm f q : mfacts m D -> (0 <= f < m_dim m)%Z -> interior (m_n m f) q -> face_area m nrm f (nextc m f q) = face_area m nrm f q.
Proof.
  intros F Hf Hq. pose proof (mf_dim _ _ F) as Hdim. destruct (next_ok m D f q F Hf Hq) as (_ & _ & Hpc & _). unfold face_area. destruct nrm; [reflexivity|].
  destruct (pt_cases f ltac:(lia)) as [->|[->| ->]]; cbn [perp0 perp1 Z.eqb Pos.eqb]; rewrite !Hpc by lia; reflexivity.
Qed.

Lemma adjoint_entry m D types values nrm h0 f q p : mfacts m D -> bc_fits m types -> has_ics h0 -> periodic_min m 2 ->
  (0 <= f < m_dim m)%Z -> types f (2 * f)%Z <> NEUMANN -> types f (2 * f + 1)%Z <> NEUMANN ->
  interior (m_n m f) q -> interior (m_n m 3) p ->
  entry (op_log (op_of m D types values (div_rows m D nrm) h0)) (idx m D 3 p) (idx m D f q)
  = - (face_area m nrm f q * (if nrm then 1 else wid m f f (pc q f)) * entry (asm_ins (nranks D) (grad_rows m D nrm)) (idx m D f q) (idx m D 3 p)).
Proof.
  intros F Hb Hics Hmin Hf T0 T1 Hq Hp. rewrite (div_entry m D types values nrm h0 f q p) by auto. rewrite grad_entry by auto.
  pose proof (own_width_pos m D f q F Hf Hq) as W. unfold gw.
  assert (X : forall a, a * (if nrm then 1 else wid m f f (pc q f)) * ((if nrm then 1 else 1 / wid m f f (pc q f)) * (indicator (pt_eqb p (nextc m f q)) - indicator (pt_eqb p q)))
    = a * (indicator (pt_eqb p (nextc m f q)) - indicator (pt_eqb p q))).
  { intros a. destruct nrm; [lra|]. field. lra. }
  rewrite X. destruct (pt_eqb p q) eqn:A.
  - apply pt_eqb_spec in A. subst p. unfold indicator. lra.
  - destruct (pt_eqb p (nextc m f q)) eqn:B; [|unfold indicator; lra]. apply pt_eqb_spec in B. subst p. rewrite (face_area_next m D) by auto. unfold indicator. lra.
Qed.

(** * Bilinear form *)
Lemma mat_mult_swap log (nr nc : Z) (y v : Z -> R) :
  zsum (fun r => y r * mat_mult log nc v r) 0 nr = zsum (fun c => v c * zsum (fun r => entry log r c * y r) 0 nr) 0 nc.
Proof.
  unfold mat_mult, zsum.
  rewrite (sumR_ext _ (fun r => sumR (fun c => y r * entry log r c * v c) (zrange 0 nc))).
  2: { intros r _. rewrite <- sumR_scal. apply sumR_ext. intros; lra. }
  rewrite sumR_swap. apply sumR_ext. intros c _. rewrite <- sumR_scal. apply sumR_ext. intros; lra.
Qed.

Lemma adjoint_form dlog glog (np nv : Z) (w : Z -> R) (y v : Z -> R) :
  (forall r c, (0 <= r < np)%Z -> (0 <= c < nv)%Z -> entry dlog r c = - (w c * entry glog c r)) ->
  zsum (fun r => y r * mat_mult dlog nv v r) 0 np = - zsum (fun c => w c * v c * mat_mult glog np y c) 0 nv.
Proof.
  intros H. rewrite mat_mult_swap. unfold mat_mult, zsum. rewrite <- sumR_opp. apply sumR_ext. intros c Hc. apply zrange_In in Hc.
  rewrite (sumR_ext (fun r => entry dlog r c * y r) (fun r => - w c * (entry glog c r * y r))).
  2: { intros r Hr. apply zrange_In in Hr. rewrite H by auto. lra. }
  rewrite sumR_scal. lra.
Qed.

Lemma velocity_ids m D c : mfacts m D -> (0 <= c < n_velocity m)%Z -> exists f p, nthZ (packed_layout (m_dim m) D) c = Some (f, p).
Proof.
  intros F Hc. assert (DA : dec_all (m_dim m) D (m_n m)) by (intros g Hg; apply (mf_dec _ _ F); auto).
  assert (L : lenZ (packed_layout (m_dim m) D) = n_velocity m).
  { apply packed_layout_len; auto; [intros; apply (mf_sizes _ _ F); auto|]. pose proof (mf_dim _ _ F). lia. }
  destruct (nthZ (packed_layout (m_dim m) D) c) as [[f p]|] eqn:E; [eauto|]. exfalso.
  destruct (nthZ_in_range (packed_layout (m_dim m) D) c) as [a Ha]; [lia|congruence].
Qed.
Lemma pressure_ids m D c : mfacts m D -> (0 <= c < n_pressure m)%Z -> exists p, nthZ (field_layout D 3) c = Some p.
Proof.
  intros F Hc. assert (L : lenZ (field_layout D 3) = n_pressure m).
  { apply (field_layout_len D (m_n m 3)); try (pose proof (sizes_pos m D 3 0 F (or_intror eq_refl) ltac:(lia));
    pose proof (sizes_pos m D 3 1 F (or_intror eq_refl) ltac:(lia)); pose proof (sizes_pos m D 3 2 F (or_intror eq_refl) ltac:(lia)); lia).
    apply (mf_dec _ _ F); auto. }
  destruct (nthZ_in_range (field_layout D 3) c) as [a Ha]; [lia|eauto].
Qed.

(** * Null space of the gradient *)
Lemma grad_zero_const m D nrm y : mfacts m D -> periodic_min m 2 ->
  ((forall c, (0 <= c < n_velocity m)%Z -> mat_mult (asm_ins (nranks D) (grad_rows m D nrm)) (n_pressure m) y c = 0) <->
   (forall c c', (0 <= c < n_pressure m)%Z -> (0 <= c' < n_pressure m)%Z -> y c = y c')).
Proof.
  intros F Hmin. pose proof (mf_dim _ _ F) as Hdim. set (P := fun p => y (idx m D 3 p)).
  assert (HP : pressure_values D y P).
  { intros id p Hid. destruct (pressure_row m D id p F Hid) as (_ & -> & _). reflexivity. }
  destruct (gradient_lemma m D nrm y P F Hmin HP) as (g & Eg & Hg). rewrite createGradient_ok in Eg by auto. injection Eg as <-.
  split; intros H.
  - assert (St : forall f p, (0 <= f < m_dim m)%Z -> interior (m_n m 3) p -> (1 <= pc p f)%Z -> P p = P (shift p f (-1))).
    { intros f p Hf Hp H1. set (q := shift p f (-1)).
      assert (Hq : interior (m_n m f) q).
      { rewrite interior_pc in *. intros e He. unfold q. rewrite pc_shift by lia. pose proof (Hp e He).
        destruct (Z.eqb_spec e f) as [->|Hne]; [|rewrite (mf_n_oth _ _ F) by auto; auto]. pose proof (mf_n_own _ _ F f Hf). destruct (periodic_dir m f); lia. }
      destruct (idx_spec m D f q F Hf Hq) as [_ N]. specialize (Hg _ _ _ N). rewrite H in Hg by now apply idx_range.
      unfold gradient_at in Hg. fold (nextc m f q) in Hg.
      assert (E : nextc m f q = p).
      { apply pt_ext. intros e He. destruct (next_ok m D f q F Hf Hq) as (_ & _ & Hpc & _). rewrite Hpc by auto. unfold q. rewrite !pc_shift by lia.
        rewrite interior_pc in Hp. pose proof (Hp f ltac:(lia)). destruct (Z.eqb_spec e f) as [->|]; [|reflexivity]. rewrite Z.eqb_refl.
        replace (pc p f + -1 + 1 =? m_n m 3 f)%Z with false by lia. lia. }
      rewrite E in Hg. assert (X : forall a b w, 0 < w -> 0 = (a - b) / w -> a = b).
      { intros a b w Hw Hx. assert (a - b = 0); [|lra]. apply (Rmult_eq_reg_r (/ w)); [unfold Rdiv in Hx; lra|]. apply Rinv_neq_0_compat. lra. }
      eapply X; [|exact Hg]. destruct nrm; [lra|]. now apply (own_width_pos m D f q F Hf Hq). }
    assert (Flat : forall p, interior (m_n m 3) p -> m_dim m = 2%Z -> pc p 2 = 0%Z).
    { intros p Hp H2. destruct (mf_flat _ _ F 3%Z (or_intror eq_refl) H2) as (E & _ & _). rewrite interior_pc in Hp. specialize (Hp 2%Z ltac:(lia)). lia. }
    assert (All : forall k, (0 <= k)%Z -> forall p, interior (m_n m 3) p -> (pc p 0 + pc p 1 + pc p 2 = k)%Z -> P p = P (0, 0, 0)%Z).
    { intros k Hk. pattern k. apply (zind_up _ 0%Z); [| |exact Hk].
      - intros p Hp E. f_equal. rewrite interior_pc in Hp. pose proof (Hp 0%Z ltac:(lia)). pose proof (Hp 1%Z ltac:(lia)). pose proof (Hp 2%Z ltac:(lia)).
        destruct p as [[a b] d]. cbn [pc Z.eqb Pos.eqb] in *. repeat f_equal; lia.
      - intros j Hj IH p Hp E.
        assert (Ex : exists f, (0 <= f < m_dim m)%Z /\ (1 <= pc p f)%Z).
        { pose proof Hp as Hp'. rewrite interior_pc in Hp'. pose proof (Hp' 0%Z ltac:(lia)). pose proof (Hp' 1%Z ltac:(lia)). pose proof (Hp' 2%Z ltac:(lia)).
          destruct (Z.le_gt_cases 1 (pc p 0)); [exists 0%Z; lia|]. destruct (Z.le_gt_cases 1 (pc p 1)); [exists 1%Z; lia|].
          exists 2%Z. split; [|lia]. destruct Hdim as [Hd2|Hd3]; [specialize (Flat p Hp Hd2); lia|lia]. }
        destruct Ex as (f & Hf & H1). rewrite (St f p Hf Hp H1). apply IH.
        + rewrite interior_pc in *. intros e He. rewrite pc_shift by lia. specialize (Hp e He). destruct (Z.eqb_spec e f) as [->|]; lia.
        + rewrite !pc_shift by lia. assert (f = 0 \/ f = 1 \/ f = 2)%Z as [->|[->| ->]] by lia; cbn [Z.eqb Pos.eqb]; lia. }
    assert (Y : forall c, (0 <= c < n_pressure m)%Z -> y c = P (0, 0, 0)%Z).
    { intros c Hc. destruct (pressure_ids m D c F Hc) as [p Hid]. rewrite <- (HP _ _ Hid). destruct (pressure_row m D c p F Hid) as (Hp & _ & _).
      apply (All (pc p 0 + pc p 1 + pc p 2)%Z); auto. rewrite interior_pc in Hp.
      pose proof (Hp 0%Z ltac:(lia)). pose proof (Hp 1%Z ltac:(lia)). pose proof (Hp 2%Z ltac:(lia)). lia. }
    intros c c' Hc Hc'. now rewrite !Y.
  - intros c Hc. destruct (velocity_ids m D c F Hc) as (f & p & Hid). rewrite (Hg _ _ _ Hid).
    destruct (velocity_row m D c f p F Hid) as (Hf & Hp & _ & _). unfold gradient_at. fold (nextc m f p).
    destruct (next_ok m D f p F Hf Hp) as (N1 & _). pose proof (vcell m D f p F Hf Hp) as Hc0.
    unfold P. rewrite (H (idx m D 3 (nextc m f p)) (idx m D 3 p)) by now apply pidx_range. unfold Rdiv. rewrite Rminus_diag_eq by reflexivity. lra.
Qed.

(** * D G *)
Section DG.
Variables (m : mesh) (D : dec) (types : Z -> Z -> bctype) (values : Z -> Z -> R) (nrm : bool) (h0 : list bop).
Hypothesis F : mfacts m D.
Hypothesis Hb : bc_fits m types.
Hypothesis Hics : has_ics h0.
Hypothesis Hmin : periodic_min m 2.
Hypothesis Hneu : no_normal_neumann m types.
Let dlog := op_log (op_of m D types values (div_rows m D nrm) h0).
Let glog := asm_ins (nranks D) (grad_rows m D nrm).

Definition dg_weight (c : Z) : R :=
  match nthZ (packed_layout (m_dim m) D) c with
  | Some (f, q) => face_area m nrm f q * (if nrm then 1 else wid m f f (pc q f)) | None => 1 end.
Lemma dg_weight_pos c : (0 <= c < n_velocity m)%Z -> 0 < dg_weight c.
Proof.
  intros Hc. destruct (velocity_ids m D c F Hc) as (f & q & E). unfold dg_weight. rewrite E.
  destruct (velocity_row m D c f q F E) as (Hf & Hq & _). apply Rmult_lt_0_compat.
  - apply (face_area_pos m D); auto. exact (vcell m D f q F Hf Hq).
  - destruct nrm; [lra|]. exact (own_width_pos m D f q F Hf Hq).
Qed.
Lemma dg_entry r c : (0 <= r < n_pressure m)%Z -> (0 <= c < n_velocity m)%Z -> entry dlog r c = - (dg_weight c * entry glog c r).
Proof.
  intros Hr Hc. destruct (velocity_ids m D c F Hc) as (f & q & E). destruct (pressure_ids m D r F Hr) as (p & Ep).
  unfold dg_weight. rewrite E. destruct (velocity_row m D c f q F E) as (Hf & Hq & -> & _). destruct (pressure_row m D r p F Ep) as (Hp & -> & _).
  destruct (Hneu f Hf) as [T0 T1]. now apply adjoint_entry.
Qed.
Lemma dg_form y z : zsum (fun r => y r * mat_mult dlog (n_velocity m) (mat_mult glog (n_pressure m) z) r) 0 (n_pressure m)
  = - zsum (fun c => dg_weight c * mat_mult glog (n_pressure m) z c * mat_mult glog (n_pressure m) y c) 0 (n_velocity m).
Proof. apply adjoint_form. intros; now apply dg_entry. Qed.
Lemma dg_symmetric y z : zsum (fun r => y r * mat_mult dlog (n_velocity m) (mat_mult glog (n_pressure m) z) r) 0 (n_pressure m)
  = zsum (fun r => z r * mat_mult dlog (n_velocity m) (mat_mult glog (n_pressure m) y) r) 0 (n_pressure m).
Proof. rewrite !dg_form. f_equal. apply zsum_ext. intros; lra. Qed.
Lemma dg_negative y : zsum (fun r => y r * mat_mult dlog (n_velocity m) (mat_mult glog (n_pressure m) y) r) 0 (n_pressure m) <= 0.
Proof.
  rewrite dg_form. assert (0 <= zsum (fun c => dg_weight c * mat_mult glog (n_pressure m) y c * mat_mult glog (n_pressure m) y c) 0 (n_velocity m)); [|lra].
  apply sumR_nonneg. intros c Hc. apply zrange_In in Hc. pose proof (dg_weight_pos c Hc). rewrite Rmult_assoc. apply Rmult_le_pos; [lra|apply Rle_0_sqr].
Qed.
Lemma dg_kernel y : zsum (fun r => y r * mat_mult dlog (n_velocity m) (mat_mult glog (n_pressure m) y) r) 0 (n_pressure m) = 0 ->
  forall c c', (0 <= c < n_pressure m)%Z -> (0 <= c' < n_pressure m)%Z -> y c = y c'.
Proof.
  intros H. rewrite dg_form in H. apply (grad_zero_const m D nrm y F Hmin). intros c Hc.
  assert (H0 : zsum (fun c => dg_weight c * mat_mult glog (n_pressure m) y c * mat_mult glog (n_pressure m) y c) 0 (n_velocity m) = 0) by lra.
  unfold zsum in H0.
  assert (Nn : forall c, In c (zrange 0 (n_velocity m)) -> 0 <= dg_weight c * mat_mult glog (n_pressure m) y c * mat_mult glog (n_pressure m) y c).
  { intros c0 Hc0. apply zrange_In in Hc0. pose proof (dg_weight_pos c0 Hc0). rewrite Rmult_assoc. apply Rmult_le_pos; [lra|apply Rle_0_sqr]. }
  pose proof (sumR_nonneg_zero _ _ Nn H0 c ltac:(now apply zrange_In)) as Z0. cbv beta in Z0. pose proof (dg_weight_pos c Hc).
  fold glog. apply Rmult_integral in Z0. destruct Z0 as [Z0|Z0]; [|exact Z0]. apply Rmult_integral in Z0. destruct Z0 as [Z0|Z0]; [lra|exact Z0].
Qed.
End DG.

(** * Divergence theorem *)
Lemma sum_layout {A} (g : Z -> A -> R) (l : list A) : forall h : A -> R, (forall id a, nthZ l id = Some a -> g id a = h a) ->
  forall v : Z -> R, (forall id a, nthZ l id = Some a -> v id = g id a) -> zsum v 0 (lenZ l) = sumR h l.
Proof.
  intros h Hh v Hv. assert (E : forall id a, nthZ l id = Some a -> v id = h a) by (intros; rewrite (Hv _ _ H); auto). clear g Hh Hv.
  revert v E. induction l as [|a t IH]; intros v E.
  - apply zsum_nil. unfold lenZ. cbn. lia.
  - assert (Hl : lenZ (a :: t) = (lenZ t + 1)%Z) by (unfold lenZ; cbn [length]; lia). pose proof (lenZ_nonneg t). rewrite Hl. rewrite zsum_cons by lia.
    cbn [sumR]. f_equal; [now apply E|]. rewrite (zsum_shift v 0 (lenZ t) 1). apply IH. intros id b Hb. apply E.
    pose proof (nthZ_Some_range _ _ _ Hb). rewrite nthZ_cons_pos by lia. replace (id + 1 - 1)%Z with id by lia. exact Hb.
Qed.

Lemma cells_In m p : In p (cells m) <-> interior (m_n m 3) p.
Proof. destruct p as [[i j] k]. unfold cells. rewrite box_In. reflexivity. Qed.

Lemma split_sum {A} (P : A -> bool) (g : A -> R) l : sumR g l = sumR g (filter P l) + sumR g (filter (fun a => negb (P a)) l).
Proof. induction l as [|a t IH]; [cbn; lra|]. cbn [filter sumR]. destruct (P a); cbn [negb sumR]; lra. Qed.

Lemma telescope_dir m f (A g : pt -> R) : (0 <= f < 3)%Z -> (forall p s, A (shift p f s) = A p) ->
  sumR (fun p => A p * (g p - g (shift p f (-1)))) (cells m)
  = sumR (fun p => A p * g p) (filter (fun p => (pc p f =? m_n m 3 f - 1)%Z) (cells m))
  - sumR (fun p => A p * g (shift p f (-1))) (filter (fun p => (pc p f =? 0)%Z) (cells m)).
Proof.
  intros Hf HA.
  rewrite (sumR_ext _ (fun p => A p * g p - A p * g (shift p f (-1)))) by (intros; lra). rewrite sumR_minus.
  rewrite (split_sum (fun p => (pc p f =? m_n m 3 f - 1)%Z) (fun p => A p * g p)).
  rewrite (split_sum (fun p => (pc p f =? 0)%Z) (fun p => A p * g (shift p f (-1)))).
  assert (E : sumR (fun p => A p * g (shift p f (-1))) (filter (fun p => negb (pc p f =? 0)%Z) (cells m))
    = sumR (fun p => A p * g p) (filter (fun p => negb (pc p f =? m_n m 3 f - 1)%Z) (cells m))); [|lra].
  rewrite (sumR_ext _ (fun p => (fun q => A q * g q) (shift p f (-1)))) by (intros; now rewrite HA).
  rewrite <- (sumR_map (fun p => shift p f (-1)) (fun q => A q * g q)).
  assert (Inv : forall p s t, (s + t = 0)%Z -> shift (shift p f s) f t = p).
  { intros p s t Hst. apply pt_ext. intros e He. rewrite !pc_shift by lia. destruct (Z.eqb_spec e f) as [->|]; [rewrite Z.eqb_refl; lia|reflexivity]. }
  apply sumR_perm. apply NoDup_Permutation.
  - apply FinFun.Injective_map_NoDup; [|apply NoDup_filter, box_NoDup]. intros p p' Ep. rewrite <- (Inv p (-1)%Z 1%Z), <- (Inv p' (-1)%Z 1%Z) by lia. now rewrite Ep.
  - apply NoDup_filter, box_NoDup.
  - intros q. rewrite in_map_iff, filter_In, cells_In. split.
    + intros (p & <- & Hp). apply filter_In in Hp. destruct Hp as [Hp Hn]. apply cells_In in Hp. rewrite interior_pc in *.
      pose proof (Hp f Hf). split; [|rewrite pc_shift by lia; rewrite Z.eqb_refl; lia].
      intros e He. rewrite pc_shift by lia. specialize (Hp e He). destruct (Z.eqb_spec e f) as [->|]; lia.
    + intros [Hq Hn]. exists (shift q f 1). split; [apply Inv; lia|]. apply filter_In. rewrite cells_In. rewrite interior_pc in *.
      pose proof (Hq f Hf). split; [|rewrite pc_shift by lia; rewrite Z.eqb_refl; lia].
      intros e He. rewrite pc_shift by lia. specialize (Hq e He). destruct (Z.eqb_spec e f) as [->|]; lia.
Qed.

Lemma face_area_shift m nrm f p s : (0 <= f < 3)%Z -> face_area m nrm f (shift p f s) = face_area m nrm f p.
Proof.
  intros Hf. unfold face_area. destruct nrm; [reflexivity|].
  destruct (pt_cases f ltac:(lia)) as [->|[->| ->]]; cbn [perp0 perp1 Z.eqb Pos.eqb]; rewrite !pc_shift by lia; reflexivity.
Qed.

Lemma total_flux m nrm u : (m_dim m = 2 \/ m_dim m = 3)%Z -> sumR (net_flux m nrm u) (cells m) = domain_outflow m nrm u.
Proof.
  intros Hdim. unfold net_flux, domain_outflow, zsum. rewrite sumR_swap. apply sumR_ext. intros f Hf. apply zrange_In in Hf.
  apply (telescope_dir m f (face_area m nrm f) (u f)); [lia|]. intros; apply face_area_shift; lia.
Qed.

Lemma sum_cells m D (g : pt -> R) v : mfacts m D -> (forall id p, nthZ (field_layout D 3) id = Some p -> v id = g p) ->
  zsum v 0 (n_pressure m) = sumR g (cells m).
Proof.
  intros F Hv. assert (Hd3 := mf_dec _ _ F 3%Z (or_intror eq_refl)).
  assert (L : lenZ (field_layout D 3) = n_pressure m).
  { apply (field_layout_len D (m_n m 3)); auto; (pose proof (sizes_pos m D 3 0 F (or_intror eq_refl) ltac:(lia));
    pose proof (sizes_pos m D 3 1 F (or_intror eq_refl) ltac:(lia)); pose proof (sizes_pos m D 3 2 F (or_intror eq_refl) ltac:(lia)); lia). }
  rewrite <- L. rewrite (sum_layout (fun _ => g) (field_layout D 3) g) by auto. apply sumR_perm. apply NoDup_Permutation.
  - eapply field_layout_NoDup; eauto.
  - apply box_NoDup.
  - intros p. rewrite (field_layout_In D (m_n m 3)) by auto. now rewrite cells_In.
Qed.

(** On a periodic direction the two boundary sums cancel. *)
Lemma periodic_outflow m D nrm B x u : mfacts m D -> extends m D B x u ->
  (forall d, (0 <= d < m_dim m)%Z -> periodic_dir m d = true) -> domain_outflow m nrm u = 0.
Proof.
  intros F (_ & X2 & _) Hper. pose proof (mf_dim _ _ F) as Hdim. unfold domain_outflow, zsum. apply sumR_zero. intros f Hf. apply zrange_In in Hf.
  assert (Hn : forall e, (0 <= e < 3)%Z -> m_n m f e = m_n m 3 e).
  { intros e He. destruct (Z.eq_dec f e) as [<-|Hne]; [|now apply (mf_n_oth _ _ F)]. pose proof (mf_n_own _ _ F f Hf) as Ho. rewrite (Hper f Hf) in Ho. exact Ho. }
  assert (Hpos : forall e, (0 <= e < 3)%Z -> (1 <= m_n m f e)%Z) by (intros; eapply sizes_pos; eauto).
  apply Rminus_diag_eq. symmetry.
  rewrite (sumR_ext _ (fun p => (fun q => face_area m nrm f q * u f q) (setc p f (m_n m 3 f - 1)))).
  - rewrite <- (sumR_map (fun p => setc p f (m_n m 3 f - 1)) (fun q => face_area m nrm f q * u f q)). apply sumR_perm. apply NoDup_Permutation.
    + assert (G : forall l, NoDup l -> (forall p, In p l -> pc p f = 0%Z) -> NoDup (map (fun p => setc p f (m_n m 3 f - 1)) l)).
      { induction l as [|p t IH]; intros Hnd Hz; [constructor|]. cbn [map]. inversion Hnd as [|a b Ha Ht Ee]; subst. constructor.
        - intros Hi. apply in_map_iff in Hi. destruct Hi as (p' & E & Hi). apply Ha. replace p with p'; auto. apply pt_ext. intros e He.
          destruct (Z.eq_dec e f) as [->|Hne]; [rewrite !Hz by (auto; now (left + right)); reflexivity|].
          apply (f_equal (fun z => pc z e)) in E. rewrite !pc_setc in E by lia. replace (e =? f)%Z with false in E by lia. exact E.
        - apply IH; auto. intros; apply Hz; now right. }
      apply G; [apply NoDup_filter, box_NoDup|]. intros p Hp. apply filter_In in Hp. lia.
    + apply NoDup_filter, box_NoDup.
    + intros q. rewrite in_map_iff, filter_In, cells_In. split.
      * intros (p & <- & Hp). apply filter_In in Hp. rewrite cells_In in Hp. destruct Hp as [Hp H0]. rewrite interior_pc in *.
        pose proof (Hp f ltac:(lia)). split; [|rewrite pc_setc by lia; rewrite Z.eqb_refl; lia]. intros e He. rewrite pc_setc by lia. specialize (Hp e He).
        destruct (Z.eqb_spec e f) as [->|]; lia.
      * intros [Hq Hl]. exists (setc q f 0). rewrite interior_pc in Hq. pose proof (Hq f ltac:(lia)). split.
        -- apply pt_ext. intros e He. rewrite !pc_setc by lia. destruct (Z.eqb_spec e f) as [->|]; lia.
        -- apply filter_In. rewrite cells_In, interior_pc. split; [|rewrite pc_setc by lia; rewrite Z.eqb_refl; lia].
           intros e He. rewrite pc_setc by lia. specialize (Hq e He). destruct (Z.eqb_spec e f) as [->|]; lia.
  - intros p Hp. apply filter_In in Hp. rewrite cells_In in Hp. destruct Hp as [Hp H0]. rewrite interior_pc in Hp.
    pose proof (Hp f ltac:(lia)) as Hpf. specialize (Hpos f ltac:(lia)) as Hnf. pose proof (Hn f ltac:(lia)) as Hnn.
    set (q := shift p f (-1)).
    assert (Oq : forall e, (0 <= e < 3)%Z -> pc q e = if (e =? f)%Z then (-1)%Z else pc p e).
    { intros e He. unfold q. rewrite pc_shift by lia. destruct (Z.eqb_spec e f) as [->|]; lia. }
    assert (Im : image (m_n m f) q = setc p f (m_n m 3 f - 1)).
    { apply pt_ext. intros e He. rewrite pc_image by lia. rewrite Oq by auto. rewrite pc_setc by lia. destruct (Z.eqb_spec e f) as [->|Hne].
      - destruct (wrap_near (m_n m f f) (-1)) as [[? ?]|[[? ?]|[? ?]]]; lia.
      - unfold wrap. rewrite Hn by auto. apply Z.mod_small. now apply Hp. }
    cbv beta. rewrite <- Im. f_equal.
    + rewrite Im. unfold face_area. destruct nrm; [reflexivity|].
      destruct (pt_cases f ltac:(lia)) as [->|[->| ->]]; cbn [perp0 perp1 Z.eqb Pos.eqb]; rewrite !pc_setc by lia; reflexivity.
    + apply X2; auto.
      * apply in_frame_pc. intros e He. rewrite Oq by auto. destruct (Z.eqb_spec e f) as [->|]; [lia|]. rewrite Hn by auto. specialize (Hp e He). lia.
      * rewrite (n_outside_one _ q f ltac:(lia)); [rewrite Oq by lia; rewrite Z.eqb_refl; reflexivity|]. intros e He Hne. rewrite Oq by auto.
        replace (e =? f)%Z with false by lia. rewrite Hn by auto. now apply Hp.
      * apply has_image_pc. intros e He Ho. rewrite Oq in Ho by auto. destruct (Z.eqb_spec e f) as [->|Hne]; [now apply Hper|].
        exfalso. specialize (Hp e He). rewrite Hn in Ho by auto. unfold outside in Ho. lia.
Qed.
