(** Entries and row sums of the delta operator. *)
From Coq Require Import String ZifyBool Permutation.
From Verif Require Import Prelude ZSum RSum TypesModel GridModel GridSpec GridProof MeshProof IndexModel IndexSpec IndexProof
  BoundaryModel BoundarySpec BoundaryProof OperatorModel OperatorSpec OperatorProof BStateProof BodyModel BodySpec BodyProof BodyUse
  DeltaModel DeltaSpec DeltaKernel DeltaProof.
Local Open Scope R_scope.

(** * From the loops to the rows *)
Definition hosts (m : mesh) (IJK : list Z) (X : list R) : Prop :=
  forall d, (0 <= d < m_dim m)%Z -> exists k, nthZ IJK d = Some k /\ host_index m d (xc X d) = Ok k.
Definition widths_are (m : mesh) (h : Z -> R) (ws : list R) : Prop :=
  lenZ ws = m_dim m /\ forall d, (0 <= d < m_dim m)%Z -> nthZ ws d = Some (h d).

(** The widths are those of the host cell of the first point of the body on
    rank r. *)
Definition body_widths (m : mesh) (bodies : list (body * list (list R))) (b r : Z) (ws : list R) : Prop :=
  lenZ ws = m_dim m /\ exists bc X, nthZ bodies b = Some bc /\ nthZ (snd bc) (b_bg (fst bc) r) = Some X /\
    forall d, (0 <= d < m_dim m)%Z -> exists k, host_index m d (xc X d) = Ok k /\ nthZ ws d = Some (wid m 0 d k).
(** Point i of body b is on rank r. *)
Definition on_rank (bodies : list (body * list (list R))) (b i r : Z) : Prop :=
  exists bc, nthZ bodies b = Some bc /\ (b_bg (fst bc) r <= i < b_bg (fst bc) r + b_l (fst bc) r)%Z.

Definition point_row (m : mesh) (D : dec) (B : boundary) (K : kernel) (w : Z) (bodies : list (body * list (list R)))
    (b i c row : Z) (X : list R) (evs : list mev) : Prop :=
  exists r per ws IJK, ((0 <= r < nranks D)%Z /\ on_rank bodies b i r) /\ located bodies b i X /\ lenZ X = m_dim m /\ (0 <= c < m_dim m)%Z /\
    bp_getPackedGlobalIndex (nranks D) (m_dim m) (map fst bodies) b i c = Ok row /\
    delta_flags m (B r) = Ok per /\ body_widths m bodies b r ws /\ hosts m IJK X /\
    delta_row m D K w per ws IJK X c row = Ok evs.

Section Op.
Context (m : mesh) (D : dec) (Hs : mesh_setup m D).
Context (bodies : list (body * list (list R))) (Hbo : bodies_ok m D bodies).
Let F := setup_facts m D Hs.

Lemma body_facts b bc : nthZ bodies b = Some bc -> spread (nranks D) (fst bc) /\ lenZ (snd bc) = b_nPts (fst bc) /\
  Forall (fun row => lenZ row = m_dim m) (snd bc).
Proof.
  intros E. destruct Hbo as ((_ & _ & Hf) & Hc). pose proof (nthZ_In _ _ _ E) as Hin. rewrite Forall_forall in Hf, Hc.
  split; [apply Hf; now apply in_map|]. now apply Hc.
Qed.

Lemma bg_bounds b bc r : nthZ bodies b = Some bc -> (0 <= r < nranks D)%Z ->
  (0 <= b_bg (fst bc) r)%Z /\ (b_bg (fst bc) r + b_l (fst bc) r <= b_nPts (fst bc))%Z /\ (0 <= b_l (fst bc) r)%Z.
Proof.
  intros E Hr. destruct (body_facts b bc E) as (Sp & _). destruct Sp as [Hp Hsum]. split; [|split; [|apply Hp; lia]].
  - pose proof (bg_mono (nranks D) (fst bc) 0 r (conj Hp Hsum) ltac:(lia) ltac:(lia)) as M. unfold b_bg in M at 1. rewrite isum_nil in M by lia. exact M.
  - pose proof (bg_mono (nranks D) (fst bc) (r + 1) (nranks D) (conj Hp Hsum) ltac:(lia) ltac:(lia)) as M. unfold b_bg in M.
    rewrite isum_snoc, Hsum in M by lia. unfold b_bg. lia.
Qed.

Lemma mi_facts r mi b bc : bp_updateMeshIdx m (m_dim m) bodies r = Ok mi -> nthZ bodies b = Some bc -> (0 <= r < nranks D)%Z ->
  exists mib, nthZ mi b = Some mib /\ lenZ mib = b_l (fst bc) r /\
    forall i, (0 <= i < b_l (fst bc) r)%Z -> exists X IJK, nthZ mib i = Some IJK /\ nthZ (snd bc) (b_bg (fst bc) r + i) = Some X /\
      lenZ X = m_dim m /\ hosts m IJK X.
Proof.
  intros E Eb Hr. destruct (mapM_inv _ _ _ E) as [_ N]. destruct (N b bc Eb) as (mib & Em & Emi). exists mib. split; [exact Emi|].
  destruct (bg_bounds b bc r Eb Hr) as (B0 & B1 & B2). unfold updateMeshIdx in Em. destruct (mapM_inv _ _ _ Em) as [L N2].
  unfold b_ed in *. rewrite zrange_lenZ in L by lia. split; [lia|].
  intros i Hi. destruct (N2 i (b_bg (fst bc) r + i)%Z) as (IJK & EI & NI); [rewrite nthZ_zrange by lia; reflexivity|].
  apply bind_ok_inv in EI. destruct EI as (X & EX & EI). apply rd_Ok in EX. exists X, IJK.
  destruct (body_facts b bc Eb) as (_ & _ & Hl). rewrite Forall_forall in Hl. pose proof (Hl X (nthZ_In _ _ _ EX)) as LX.
  split; [exact NI|]. split; [exact EX|]. split; [exact LX|].
  intros d Hd. destruct (mapM_inv _ _ _ EI) as [_ N3]. destruct (N3 d d) as (k & Ek & Nk).
  { rewrite nthZ_zrange by lia. f_equal. }
  apply bind_ok_inv in Ek. destruct Ek as (x & Ex & Ek). apply rd_Ok in Ex. exists k. split; [exact Nk|]. unfold xc. rewrite Ex. exact Ek.
Qed.

Lemma widths_facts mib ws b bc r X0 : nthZ bodies b = Some bc -> nthZ (snd bc) (b_bg (fst bc) r) = Some X0 -> hosts m (match nthZ mib 0 with Some l => l | None => [] end) X0 ->
  delta_widths m mib = Ok ws -> body_widths m bodies b r ws.
Proof.
  intros Eb EX Hh E. unfold delta_widths in E. destruct (mapM_inv _ _ _ E) as [L N].
  pose proof (mf_dim _ _ F) as Hdim. rewrite zrange_lenZ in L by lia. split; [lia|]. exists bc, X0. split; [exact Eb|]. split; [exact EX|]. intros d Hd.
  destruct (N d d) as (v & Ev & Nv); [rewrite nthZ_zrange by lia; f_equal|]. rewrite Nv.
  apply bind_ok_inv in Ev. destruct Ev as (fst0 & E0 & Ev). apply rd_Ok in E0. rewrite E0 in Hh.
  apply bind_ok_inv in Ev. destruct Ev as (k & Ek & Ev). apply rd_Ok in Ek.
  destruct (Hh d Hd) as (k' & Ek' & Hk). rewrite Ek in Ek'. injection Ek' as <-.
  exists k. split; [exact Hk|]. unfold wid. rewrite Ev. reflexivity.
Qed.

Lemma body_widths_pos b r ws : body_widths m bodies b r ws -> forall d, (0 <= d < m_dim m)%Z -> exists v, nthZ ws d = Some v /\ 0 < v.
Proof.
  intros (_ & bc & X & _ & _ & Hw) d Hd. destruct (Hw d Hd) as (k & Hk & ->). eexists. split; [reflexivity|].
  destruct (host_cell m D Hs d _ k Hd Hk) as ((Rk & _) & _). pose proof (mf_dim _ _ F) as Hdim.
  pose proof (n_own_oth m D Hs 0 d ltac:(lia) Hd). apply (mf_wid _ _ F); lia.
Qed.

Context (B : boundary) (name : string) (K : kernel) (w : Z) (HK : getKernel name = Ok (K, w)) (log : list mev)
  (HL : createDelta m D B K w bodies = Ok log).

Lemma rank_log_In r mi evs : (0 <= r < nranks D)%Z -> bp_updateMeshIdx m (m_dim m) bodies r = Ok mi ->
  createDelta_rank m D (B r) K w bodies mi r = Ok evs ->
  (forall e, In e evs -> exists b i c row X es, point_row m D B K w bodies b i c row X es /\ In e es) /\
  (forall b bc i c, nthZ bodies b = Some bc -> (b_bg (fst bc) r <= i < b_bg (fst bc) r + b_l (fst bc) r)%Z -> (0 <= c < m_dim m)%Z ->
     exists row X es, point_row m D B K w bodies b i c row X es /\ incl es evs).
Proof.
  intros Hr Emi E. unfold createDelta_rank in E. apply bind_ok_inv in E. destruct E as (per & Ep & E).
  apply foldM_collect with (P := fun b es1 =>
    (forall e, In e es1 -> exists i c row X es, point_row m D B K w bodies b i c row X es /\ In e es) /\
    (forall bc i c, nthZ bodies b = Some bc -> (b_bg (fst bc) r <= i < b_bg (fst bc) r + b_l (fst bc) r)%Z -> (0 <= c < m_dim m)%Z ->
     exists row X es, point_row m D B K w bodies b i c row X es /\ incl es es1)) in E.
  - destruct E as (es & -> & I1 & I2). cbn [app]. split.
    + intros e He. destruct (I1 e He) as (b & s & Hb & (P1 & _) & Hin). destruct (P1 e Hin) as (i & Q). exists b, i. exact Q.
    + intros b bc i c Eb Hi Hc. destruct (I2 b) as (s & (_ & P2) & Hin); [apply zrange_In; eapply nthZ_Some_range; eauto|].
      destruct (P2 bc i c Eb Hi Hc) as (row & X & es0 & Q & Hi0). exists row, X, es0. split; [exact Q|]. eapply incl_tran; eauto.
  - clear E. intros b lg lg' Hb E. cbv beta in E.
    apply bind_ok_inv in E. destruct E as (bc & Eb & E). apply rd_Ok in Eb.
    apply bind_ok_inv in E. destruct E as (mib & Em & E). apply rd_Ok in Em.
    apply bind_ok_inv in E. destruct E as (ws & Ew & E).
    destruct (mi_facts r mi b bc Emi Eb Hr) as (mib' & Em' & Lm & Hm). rewrite Em in Em'. injection Em' as <-.
    assert (Hws : (0 < b_l (fst bc) r)%Z -> body_widths m bodies b r ws).
    { intros Hp. destruct (Hm 0%Z ltac:(lia)) as (X0 & I0 & N0 & NX & _ & Hh). rewrite Z.add_0_r in NX. apply (widths_facts mib ws b bc r X0); auto. rewrite N0. exact Hh. }
    apply foldM_collect with (P := fun i es2 =>
      (forall e, In e es2 -> exists c row X es, point_row m D B K w bodies b (b_bg (fst bc) r + i) c row X es /\ In e es) /\
      (forall c, (0 <= c < m_dim m)%Z -> exists row X es, point_row m D B K w bodies b (b_bg (fst bc) r + i) c row X es /\ incl es es2)) in E.
    + destruct E as (es & -> & I1 & I2). exists es. split; [reflexivity|]. split.
      * intros e He. destruct (I1 e He) as (i & s & Hi & (P1 & _) & Hin). destruct (P1 e Hin) as (c & Q). exists (b_bg (fst bc) r + i)%Z, c. exact Q.
      * intros bc' i c Eb' Hi Hc. rewrite Eb in Eb'. injection Eb' as <-.
        destruct (I2 (i - b_bg (fst bc) r)%Z) as (s & (_ & P2) & Hin); [apply zrange_In; lia|].
        destruct (P2 c Hc) as (row & X & es0 & Q & Hi0). replace (b_bg (fst bc) r + (i - b_bg (fst bc) r))%Z with i in Q by lia.
        exists row, X, es0. split; [exact Q|]. eapply incl_tran; eauto.
    + clear E. intros i l1 l1' Hi E. apply zrange_In in Hi. cbv beta in E.
      apply bind_ok_inv in E. destruct E as (IJK & EI & E). apply rd_Ok in EI.
      apply bind_ok_inv in E. destruct E as (X & EX & E). apply rd_Ok in EX.
      destruct (Hm i Hi) as (X' & IJK' & NI & NX & LX & Hh). rewrite EI in NI. injection NI as <-. rewrite EX in NX. injection NX as <-.
      apply foldM_collect with (P := fun c es3 => exists row, point_row m D B K w bodies b (b_bg (fst bc) r + i) c row X es3) in E.
      * destruct E as (es & -> & I1 & I2). exists es. split; [reflexivity|]. split.
        { intros e He. destruct (I1 e He) as (c & s & Hc & (row & Q) & Hin). exists c, row, X, s. auto. }
        { intros c Hc. destruct (I2 c) as (s & (row & Q) & Hin); [now apply zrange_In|]. exists row, X, s. auto. }
      * clear E. intros c l2 l2' Hc E. apply zrange_In in Hc. cbv beta in E.
        apply bind_ok_inv in E. destruct E as (row & Er & E). apply bind_ok_inv in E. destruct E as (evs0 & Ee & E). injection E as <-.
        exists evs0. split; [reflexivity|]. exists row, r, per, ws, IJK. split; [split; [exact Hr|exists bc; split; [exact Eb|lia]]|].
        split; [exists bc; auto|]. split; [exact LX|]. split; [exact Hc|]. split; [exact Er|]. split; [exact Ep|].
        split; [apply Hws; lia|]. auto.
Qed.

Lemma log_In :
  (forall e, In e log -> exists b i c row X es, point_row m D B K w bodies b i c row X es /\ In e es) /\
  (forall b i c row, nthZ (body_layout (nranks D) (m_dim m) (map fst bodies)) row = Some (b, i, c) ->
     exists X es, point_row m D B K w bodies b i c row X es /\ incl es log).
Proof.
  unfold createDelta in HL. apply bind_ok_inv in HL. destruct HL as (logs & EL & E). injection E as <-.
  destruct (mapM_inv _ _ _ EL) as [LL N]. split.
  - intros e He. apply in_concat in He. destruct He as (evs & Hin & He).
    apply In_nthZ in Hin. destruct Hin as (r & Hr & Er).
    assert (R0 : (0 <= r < nranks D)%Z) by (pose proof (zrange_length 0 (nranks D)); unfold lenZ in LL, Hr; lia).
    destruct (N r r) as (evs' & Ev & Nr); [rewrite nthZ_zrange by lia; f_equal|]. rewrite Er in Nr. injection Nr as <-.
    apply bind_ok_inv in Ev. destruct Ev as (mi & Em & Ev). destruct (rank_log_In r mi evs R0 Em Ev) as [I1 _]. exact (I1 e He).
  - intros b i c row Hrow. destruct Hbo as (Hok & _). pose proof (proj1 (body_layout_In _ _ _ Hok b i c) (nthZ_In _ _ _ Hrow)) as (bo & Eb & Hi & Hc).
    destruct (packed_body _ _ _ Hok b bo i c Eb Hi Hc) as (r & idx & Hr & Ho & _ & Ei & _ & Ni).
    assert (idx = row) by (eapply nthZ_NoDup_inj; [apply (body_layout_NoDup _ _ _ Hok)| |]; eauto). subst idx.
    rewrite nthZ_map in Eb. destruct (nthZ bodies b) as [bc|] eqn:Ebc; [|discriminate]. cbn in Eb. injection Eb as <-.
    destruct (N r r) as (evs & Ev & Nr); [rewrite nthZ_zrange by lia; f_equal|].
    apply bind_ok_inv in Ev. destruct Ev as (mi & Em & Ev). destruct (rank_log_In r mi evs Hr Em Ev) as [_ I2].
    destruct (I2 b bc i c Ebc ltac:(unfold b_ed in Ho; lia) Hc) as (row' & X & es & Q & Hin).
    assert (row' = row). { destruct Q as (r' & per & ws & IJK & _ & _ & _ & _ & E' & _). rewrite Ei in E'. now injection E'. }
    subst row'. exists X, es. split; [exact Q|]. intros e He. apply in_concat. exists evs. split; [eapply nthZ_In; eauto|auto].
Qed.

(** * Entries *)
Context (types : Z -> Z -> bctype) (values : Z -> Z -> R) (hist : list bop) (Hb : bc_fits m types)
  (HB : boundary_after m D types values hist B).

Lemma flags_periodic r per d : (0 <= r < nranks D)%Z -> delta_flags m (B r) = Ok per -> (0 <= d < m_dim m)%Z ->
  exists p, nthZ per d = Some p /\ p = bctype_eqb (types 0%Z d) PERIODIC.
Proof.
  intros Hr E Hd. destruct (mapM_inv _ _ _ E) as [_ N]. destruct (N d d) as (p & Ep & Np); [rewrite nthZ_zrange by lia; f_equal|].
  exists p. split; [exact Np|]. rewrite (after_pure m D types values hist B r F Hb HB Hr) in Ep. unfold pure_state in Ep.
  unfold rd at 1 in Ep. rewrite nthZ_map, nthZ_zrange in Ep by lia. cbn [option_map bind] in Ep.
  unfold rd in Ep. rewrite nthZ_map, nthZ_zrange in Ep by lia. cbn [option_map bind] in Ep. injection Ep as <-. cbn [Z.add].
  unfold sb_after, with_points. cbn [sb_type]. unfold bsb. destruct (types 0%Z d); reflexivity.
Qed.
Lemma flag_any r per d : (0 <= r < nranks D)%Z -> delta_flags m (B r) = Ok per -> (0 <= d < m_dim m)%Z -> nthZ per d = Some true -> any_periodic m.
Proof.
  intros Hr E Hd Ht. destruct (flags_periodic r per d Hr E Hd) as (p & Np & ->). rewrite Ht in Np. injection Np as T.
  pose proof (mf_dim _ _ F) as Hdim. assert (types 0%Z d = PERIODIC) by (destruct (types 0%Z d); try discriminate; reflexivity).
  destruct (Hb 0%Z d ltac:(lia) ltac:(lia)) as [_ Hp]. exists (loc_dir d). split; [unfold loc_dir; assert (d = 0 \/ d = 1 \/ d = 2)%Z as [->|[->| ->]] by lia; cbn; lia|]. now apply Hp.
Qed.

Context (h : Z -> R) (Hu : uniform_around m h w bodies) (Hw : wide_enough m w).

Lemma around b i X d k : located bodies b i X -> (0 <= d < m_dim m)%Z -> host_index m d (xc X d) = Ok k ->
  cell_of m d k (xc X d) /\ 0 < h d /\ forall j, (0 <= j < m_n m 3 d)%Z -> near_cell m d w k j -> wid m 3 d j = h d.
Proof.
  intros Hl Hd Hk. destruct (host_cell m D Hs d _ k Hd Hk) as (Hc & _). destruct Hu as [Hp Ha]. split; [exact Hc|]. split; [now apply Hp|].
  intros j Hj Hn. exact (Ha b i X d k j Hl Hd Hc Hj Hn).
Qed.

Lemma widths_are_of b r ws : body_widths m bodies b r ws -> widths_are m h ws.
Proof.
  intros (L & bc & X & Eb & EX & Hws). assert (Hl : located bodies b (b_bg (fst bc) r) X) by (exists bc; auto). split; [exact L|]. intros d Hd. destruct (Hws d Hd) as (k & Hk & ->). f_equal.
  destruct (around b _ X d k Hl Hd Hk) as (Hc & Hp & Ha). pose proof (mf_dim _ _ F) as Hdim.
  apply (near_own_wid m D Hs name K w HK d k (xc X d) (h d)); auto. lia.
Qed.

Lemma nb_value b i X c d k per l s y : located bodies b i X -> (0 <= c < m_dim m)%Z -> (0 <= d < m_dim m)%Z -> host_index m d (xc X d) = Ok k ->
  (per = true -> (2 * w + 1 <= m_n m c d)%Z) -> neighbours m c d k per w = Ok l -> In (s, y) l ->
  (0 <= s < m_n m c d)%Z /\ kval K (xc X d - y) (h d) = kval K (xc X d - crd m c d s) (h d).
Proof.
  intros Hl Hc Hd Hh Hp En Hin. destruct (neighbours_In m D c d k per w l Hs Hc Hd En) as [I1 _].
  destruct (around b i X d k Hl Hd Hh) as (Hcell & P & Ha). destruct (host_cell m D Hs d _ k Hd Hh) as (_ & Hin2). set (x := xc X d) in *.
  pose proof (n_own_oth m D Hs c d Hc Hd) as Hn3. pose proof (w_radius name K w HK (h d) P) as (Wpos & _ & Wr).
  assert (Far : per = true -> radius name * h d <= m_max m d - m_min m d).
  { intros Pt. apply (domain_far m D Hs name K w HK d k x (h d)); auto. specialize (Hp Pt). lia. }
  destruct (vel_ghosts m D Hs c d Hc Hd) as [G1 G2]. destruct Hcell as (Hk & Hx).
  assert (Z0 : forall j, per = true -> (0 <= j < m_n m c d)%Z -> ~ (k - w <= j <= k + w)%Z -> kval K (x - crd m c d j) (h d) = 0).
  { intros j Pt Hi Hni. apply (kernel_out name K w); auto. pose proof (out_window m D Hs name K w HK d k x (h d) Hd (conj Hk Hx) P Ha c j Hc Hi Hni). lra. }
  destruct (I1 s y Hin) as [(Hr & _ & ->)|[(Pt & -> & Hwin & ->)|(Pt & -> & Hwin & ->)]].
  - auto.
  - specialize (Hp Pt). split; [lia|]. rewrite (Z0 (m_n m c d - 1)%Z) by (auto; lia). apply (kernel_out name K w); auto.
    specialize (Far Pt). rewrite Rabs_right; lra.
  - specialize (Hp Pt). split; [lia|]. rewrite (Z0 0%Z) by (auto; lia). apply (kernel_out name K w); auto.
    specialize (Far Pt). rewrite Rabs_left1; lra.
Qed.

Lemma row_value b i c row X es e : point_row m D B K w bodies b i c row X es -> In e es ->
  exists p, interior (m_n m c) p /\ e = mkEv row (idx m D c p) (kernel_at m K h c X p) INSERT_VALUES.
Proof.
  intros (r & per & ws & IJK & (Hr & Hor) & Hl & LX & Hc & Er & Ep & Hbw & Hh & Ed) He. destruct (widths_are_of b r ws Hbw) as (Lw & Hws).
  destruct (delta_row_In _ _ _ _ _ _ _ _ _ _ _ Ed) as (nb & En & I1 & _). destruct (I1 e He) as (p & xs & col & v & (Lx & Hp2 & Hd) & Ec & Ev & ->).
  pose proof (mf_dim _ _ F) as Hdim. destruct (mapM_inv _ _ _ En) as [_ N].
  assert (Dir : forall d, (0 <= d < m_dim m)%Z -> (0 <= pc p d < m_n m c d)%Z /\ kval K (xc X d - xc xs d) (h d) = kval K (xc X d - crd m c d (pc p d)) (h d)).
  { intros d Hdd. destruct (Hd d Hdd) as (l & El & Hin). destruct (N d d) as (l' & El' & Nl); [rewrite nthZ_zrange by lia; f_equal|].
    rewrite El in Nl. injection Nl as <-. destruct (Hh d Hdd) as (k & Ek & Hk). unfold rd in El'. rewrite Ek in El'. cbn [bind] in El'.
    destruct (flags_periodic r per d Hr Ep Hdd) as (pf & Npf & _). rewrite Npf in El'. cbn [bind] in El'.
    eapply nb_value; eauto. intros ->. apply Hw; auto. eapply flag_any; eauto. }
  exists p.
  assert (Ip : interior (m_n m c) p).
  { apply interior_pc. intros d Hd3. destruct (Z_lt_ge_dec d (m_dim m)); [apply Dir; lia|].
    assert (D2 : m_dim m = 2%Z) by lia. assert (d = 2)%Z by lia. subst d. rewrite (Hp2 D2). rewrite (proj1 (mf_flat _ _ F c (or_introl Hc) D2)). lia. }
  split; [exact Ip|]. destruct (idx_spec m D c p F Hc Ip) as [Eg _]. rewrite Eg in Ec. injection Ec as <-.
  rewrite (delta_prod (m_dim m) name K w h X xs ws) in Ev; auto.
  2: { intros d Hdd. split; [now apply Hu|now apply Hws]. }
  injection Ev as <-. f_equal. unfold kprod, kernel_at. rewrite !(proj2 (Dir 0%Z ltac:(lia))), !(proj2 (Dir 1%Z ltac:(lia))).
  destruct (Z.eqb_spec (m_dim m) 3) as [D3|]; [rewrite (proj2 (Dir 2%Z ltac:(lia)))|]; reflexivity.
Qed.

Lemma row_complete b i c row X es p : point_row m D B K w bodies b i c row X es -> interior (m_n m c) p ->
  kernel_at m K h c X p <> 0 -> exists v, In (mkEv row (idx m D c p) v INSERT_VALUES) es.
Proof.
  intros (r & per & ws & IJK & (Hr & Hor) & Hl & LX & Hc & Er & Ep & Hbw & Hh & Ed) Ip Hne.
  destruct (delta_row_In _ _ _ _ _ _ _ _ _ _ _ Ed) as (nb & En & _ & I2). pose proof (mf_dim _ _ F) as Hdim.
  destruct (mapM_inv _ _ _ En) as [_ N].
  set (xs := map (fun d => crd m c d (pc p d)) (zrange 0 (m_dim m))).
  assert (Xs : forall d, (0 <= d < m_dim m)%Z -> xc xs d = crd m c d (pc p d)).
  { intros d Hd. unfold xc, xs. rewrite nthZ_map, nthZ_zrange by lia. reflexivity. }
  assert (Hk0 : forall d, (0 <= d < m_dim m)%Z -> kval K (xc X d - crd m c d (pc p d)) (h d) <> 0).
  { intros d Hd E. apply Hne. unfold kernel_at. destruct (Z.eqb_spec (m_dim m) 3) as [D3|].
    - assert (d = 0 \/ d = 1 \/ d = 2)%Z as [->|[->| ->]] by lia; rewrite E; ring.
    - assert (d = 0 \/ d = 1)%Z as [->| ->] by lia; rewrite E; ring. }
  assert (FL : from_lists (m_dim m) nb p xs).
  { split; [unfold xs; rewrite lenZ_map, zrange_lenZ by lia; lia|]. rewrite interior_pc in Ip. split.
    - intros D2. specialize (Ip 2%Z ltac:(lia)). rewrite (proj1 (mf_flat _ _ F c (or_introl Hc) D2)) in Ip. lia.
    - intros d Hd. destruct (N d d) as (l & El & Nl); [rewrite nthZ_zrange by lia; f_equal|]. exists l. split; [exact Nl|].
      destruct (Hh d Hd) as (k & Ek & Hk). unfold rd in El. rewrite Ek in El. cbn [bind] in El.
      destruct (flags_periodic r per d Hr Ep Hd) as (pf & Npf & _). rewrite Npf in El. cbn [bind] in El.
      destruct (neighbours_In m D c d k pf w l Hs Hc Hd El) as [_ J2]. rewrite Xs by auto. pose proof (Ip d ltac:(lia)) as Hr2.
      apply J2; [|exact Hr2]. destruct (around b i X d k Hl Hd Hk) as (Hcell & Ph & Ha).
      apply (window_covers m D Hs name K w HK d k (xc X d) (h d) Hd Hcell Ph Ha c (pc p d) Hc Hr2).
      destruct (Rlt_dec (Rabs (xc X d - crd m c d (pc p d))) (radius name * h d)); [assumption|]. exfalso. apply (Hk0 d Hd).
      apply (kernel_out name K w); auto; lra. }
  destruct (I2 p xs FL) as (col & v & Ec & _ & Hin). destruct (idx_spec m D c p F Hc Ip) as [Eg _]. rewrite Eg in Ec. injection Ec as <-.
  exists v. exact Hin.
Qed.

Lemma entry_same lg r c v : Forall is_ins lg -> (forall e, In e lg -> ev_row e = r -> ev_col e = c -> ev_val e = v) ->
  ((exists e, In e lg /\ ev_row e = r /\ ev_col e = c) \/ v = 0) -> entry lg r c = v.
Proof.
  intros Hi Hv. assert (G : forall l a, Forall is_ins l -> (forall e, In e l -> ev_row e = r -> ev_col e = c -> ev_val e = v) ->
    ((exists e, In e l /\ ev_row e = r /\ ev_col e = c) \/ a = v) -> fold_left (apply_ev r c) l a = v).
  { clear. induction l as [|e t IH]; intros a Hi Hv Hx; [destruct Hx as [(e & [] & _)|Hx]; exact Hx|]. cbn [fold_left].
    inversion Hi as [|? ? Hie Hit]; subst. apply IH; [exact Hit|intros; apply Hv; cbn; auto|].
    unfold apply_ev. destruct ((ev_row e =? r)%Z && (ev_col e =? c)%Z) eqn:M.
    - right. unfold is_ins in Hie. rewrite Hie. apply Hv; [now left|lia|lia].
    - destruct Hx as [(e' & [<-|He'] & E1 & E2)|Hx]; [lia|left; eauto|right; exact Hx]. }
  intros Hx. unfold entry. apply G; auto. destruct Hx as [Hx| ->]; [left; exact Hx|right; reflexivity].
Qed.

Lemma log_ins : Forall is_ins log.
Proof.
  apply Forall_forall. intros e He. destruct log_In as [I1 _]. destruct (I1 e He) as (b & i & c & row & X & es & Q & Hin).
  destruct (row_value _ _ _ _ _ _ _ Q Hin) as (p & _ & ->). reflexivity.
Qed.

Lemma located_fun b i X X' : located bodies b i X -> located bodies b i X' -> X = X'.
Proof. intros (bc & E1 & E2) (bc' & E1' & E2'). rewrite E1 in E1'. injection E1' as <-. congruence. Qed.

Lemma entry_kernel row b i c X id f p :
  nthZ (body_layout (nranks D) (m_dim m) (map fst bodies)) row = Some (b, i, c) -> located bodies b i X ->
  nthZ (packed_layout (m_dim m) D) id = Some (f, p) ->
  entry log row id = if (f =? c)%Z then kernel_at m K h c X p else 0.
Proof.
  intros Hrow Hl Hid. destruct log_In as [I1 I2].
  assert (DA : dec_all (m_dim m) D (m_n m)) by (intros g Hg; apply (mf_dec _ _ F); auto).
  assert (Hfp : (0 <= f < m_dim m)%Z /\ interior (m_n m f) p) by (apply (packed_layout_In (m_dim m) D (m_n m) f p DA); eapply nthZ_In; eauto).
  destruct Hfp as [Hf Hp]. assert (Eid : idx m D f p = id).
  { destruct (idx_spec m D f p F Hf Hp) as [_ A]. eapply nthZ_NoDup_inj; [|exact A|exact Hid]. eapply packed_layout_NoDup; eauto. }
  destruct Hbo as (Hok & _). pose proof (proj1 (body_layout_In _ _ _ Hok b i c) (nthZ_In _ _ _ Hrow)) as (bo & _ & _ & Hc).
  destruct (I2 b i c row Hrow) as (X' & es & Q & Hincl).
  assert (X' = X) by (destruct Q as (? & ? & ? & ? & _ & Hl' & _); eapply located_fun; eauto). subst X'.
  apply entry_same; [apply log_ins| |].
  - intros e He Er Ec. destruct (I1 e He) as (b' & i' & c' & row' & X' & es' & Q' & Hin).
    destruct (row_value _ _ _ _ _ _ _ Q' Hin) as (p' & Hp' & ->). cbn [ev_row ev_col ev_val] in *. subst row'.
    destruct Q' as (? & ? & ? & ? & _ & Hl' & _ & Hc' & Epk & _).
    destruct Q as (? & ? & ? & ? & _ & _ & _ & _ & Epk2 & _).
    pose proof (proj1 (proj2 (packed_body_bijection _ _ _ Hok)) b' i' c' b i c row Epk Epk2) as T. injection T as -> -> ->.
    assert (X' = X) by (eapply located_fun; eauto). subst X'. rewrite <- Eid in Ec. apply idx_inj in Ec; auto. destruct Ec as [-> ->].
    rewrite Z.eqb_refl. reflexivity.
  - destruct (Z.eqb_spec f c) as [->|]; [|now right]. destruct (Req_EM_T (kernel_at m K h c X p) 0) as [E0|E0]; [now right|left].
    destruct (row_complete _ _ _ _ _ _ p Q Hp E0) as (v & Hin). exists (mkEv row (idx m D c p) v INSERT_VALUES).
    split; [now apply Hincl|]. cbn. auto.
Qed.
End Op.
