(** Entries of the delta operator on any mesh. *)
From Coq Require Import String ZifyBool.
From Verif Require Import Prelude ZSum RSum TypesModel GridModel GridSpec GridProof MeshProof IndexModel IndexSpec IndexProof
  BoundaryModel BoundarySpec BoundaryProof OperatorModel OperatorSpec OperatorProof BStateProof BodyModel BodySpec BodyProof BodyUse BodyProps
  DeltaModel DeltaSpec DeltaKernel DeltaProof DeltaOp StretchSpec.
Local Open Scope R_scope.

Section Any.
Context (m : mesh) (D : dec) (Hs : mesh_setup m D).
Context (bodies : list (body * list (list R))) (Hbo : bodies_ok m D bodies).
Context (B : boundary) (name : string) (K : kernel) (w : Z) (HK : getKernel name = Ok (K, w)) (log : list mev) (HL : createDelta m D B K w bodies = Ok log).
Context (types : Z -> Z -> bctype) (values : Z -> Z -> R) (hist : list bop) (Hb : bc_fits m types) (HB : boundary_after m D types values hist B).
Hypothesis Hwall : forall d, (0 <= d < m_dim m)%Z -> types 0%Z d <> PERIODIC.
Let F := setup_facts m D Hs.

Lemma rank_unique b i r r' : (0 <= r < nranks D)%Z -> (0 <= r' < nranks D)%Z -> on_rank bodies b i r -> kept_by bodies b i r' -> r = r'.
Proof.
  intros Hr Hr' (bc & E1 & H1) (bc' & E2 & H2). rewrite E1 in E2. injection E2 as <-. destruct (body_facts m D bodies Hbo b bc E1) as (Sp & _).
  assert (G : forall a c, (0 <= a)%Z -> (a < c)%Z -> (c < nranks D)%Z -> (b_bg (fst bc) a + b_l (fst bc) a <= b_bg (fst bc) c)%Z).
  { intros a c Ha Hac Hcn. pose proof (bg_mono (nranks D) (fst bc) (a + 1) c Sp ltac:(lia) ltac:(lia)) as M. unfold b_bg in M at 1. rewrite isum_snoc in M by lia. unfold b_bg in *. lia. }
  destruct (Z.lt_trichotomy r r') as [L|[E|L]]; [specialize (G r r' ltac:(lia) L ltac:(lia)); lia|exact E|specialize (G r' r ltac:(lia) L ltac:(lia)); lia].
Qed.

Lemma widths_first b r ws h : body_widths m bodies b r ws -> first_widths m bodies b r h -> widths_are m h ws.
Proof.
  intros (L & bc & X & Eb & EX & Hw) (bc' & X' & Eb' & EX' & Hh). rewrite Eb in Eb'. injection Eb' as <-. rewrite EX in EX'. injection EX' as <-.
  split; [exact L|]. intros d Hd. destruct (Hw d Hd) as (k & Hk & ->). destruct (Hh d Hd) as (k' & Hk' & ->). f_equal. f_equal.
  apply (cell_unique m D Hs d (xc X d)); auto. apply (host_cell m D Hs d _ k Hd Hk).
Qed.

Section Row.
Context (b i c row r : Z) (X : list R) (es : list mev) (h : Z -> R).
Context (Q : point_row m D B K w bodies b i c row X es) (Hr : (0 <= r < nranks D)%Z) (Hk : kept_by bodies b i r) (Hfw : first_widths m bodies b r h).

Lemma h_pos d : (0 <= d < m_dim m)%Z -> 0 < h d.
Proof.
  intros Hd. destruct Hfw as (bc & Y & _ & _ & Hh). destruct (Hh d Hd) as (k & (Rk & _) & ->). pose proof (mf_dim _ _ F) as Hdim.
  pose proof (n_own_oth m D Hs 0 d ltac:(lia) Hd). apply (mf_wid _ _ F); lia.
Qed.

Lemma any_value e : In e es -> exists p, interior (m_n m c) p /\ windowed m w X p /\ e = mkEv row (idx m D c p) (kernel_at m K h c X p) INSERT_VALUES.
Proof.
  intros He. destruct Q as (r0 & per & ws & IJK & (Hr0 & Hor) & Hl & LX & Hc & Er & Ep & Hbw & Hh & Ed).
  assert (r0 = r) by (eapply rank_unique; eauto). subst r0. destruct (widths_first b r ws h Hbw Hfw) as (Lw & Hws).
  destruct (delta_row_In _ _ _ _ _ _ _ _ _ _ _ Ed) as (nb & En & I1 & _). destruct (I1 e He) as (p & xs & col & v & (Lx & Hp2 & Hd) & Ec & Ev & ->).
  pose proof (mf_dim _ _ F) as Hdim. destruct (mapM_inv _ _ _ En) as [_ N].
  assert (Dir : forall d, (0 <= d < m_dim m)%Z -> (0 <= pc p d < m_n m c d)%Z /\ xc xs d = crd m c d (pc p d) /\ forall k, cell_of m d k (xc X d) -> (Z.abs (pc p d - k) <= w)%Z).
  { intros d Hdd. destruct (Hd d Hdd) as (l & El & Hin). destruct (N d d) as (l' & El' & Nl); [rewrite nthZ_zrange by lia; f_equal|].
    rewrite El in Nl. injection Nl as <-. destruct (Hh d Hdd) as (k & Ek & Hkk). unfold rd in El'. rewrite Ek in El'. cbn [bind] in El'.
    destruct (flags_periodic m D Hs B types values hist Hb HB r per d Hr Ep Hdd) as (pf & Npf & Epf). rewrite Npf in El'. cbn [bind] in El'.
    assert (pf = false) by (rewrite Epf; specialize (Hwall d Hdd); destruct (types 0%Z d); try reflexivity; now destruct Hwall). subst pf. rewrite H in *.
    destruct (neighbours_In m D c d k false w l Hs Hc Hdd El') as [J1 _]. destruct (J1 _ _ Hin) as [(J2 & J3 & J4)|[(J2 & _)|(J2 & _)]]; try discriminate.
    split; [exact J2|]. split; [exact J4|]. intros k' Hk'. rewrite (cell_unique m D Hs d (xc X d) k' k Hdd Hk' (proj1 (host_cell m D Hs d _ k Hdd Hkk))). lia. }
  exists p.
  assert (Ip : interior (m_n m c) p).
  { apply interior_pc. intros d Hd3. destruct (Z_lt_ge_dec d (m_dim m)); [apply Dir; lia|].
    assert (D2 : m_dim m = 2%Z) by lia. assert (d = 2)%Z by lia. subst d. rewrite (Hp2 D2). rewrite (proj1 (mf_flat _ _ F c (or_introl Hc) D2)). lia. }
  split; [exact Ip|]. split; [intros d k Hdd; apply Dir; exact Hdd|]. destruct (idx_spec m D c p F Hc Ip) as [Eg _]. rewrite Eg in Ec. injection Ec as <-.
  rewrite (delta_prod (m_dim m) name K w h X xs ws) in Ev; auto.
  2: { intros d Hdd. split; [now apply h_pos|now apply Hws]. }
  injection Ev as <-. f_equal. unfold kprod, kernel_at. rewrite !(proj1 (proj2 (Dir 0%Z ltac:(lia)))), !(proj1 (proj2 (Dir 1%Z ltac:(lia)))).
  destruct (Z.eqb_spec (m_dim m) 3) as [D3|]; [rewrite (proj1 (proj2 (Dir 2%Z ltac:(lia))))|]; reflexivity.
Qed.

Lemma any_complete p : interior (m_n m c) p -> windowed m w X p -> exists v, In (mkEv row (idx m D c p) v INSERT_VALUES) es.
Proof.
  intros Ip Hwin. destruct Q as (r0 & per & ws & IJK & (Hr0 & Hor) & Hl & LX & Hc & Er & Ep & Hbw & Hh & Ed).
  destruct (delta_row_In _ _ _ _ _ _ _ _ _ _ _ Ed) as (nb & En & _ & I2). pose proof (mf_dim _ _ F) as Hdim.
  destruct (mapM_inv _ _ _ En) as [_ N].
  set (xs := map (fun d => crd m c d (pc p d)) (zrange 0 (m_dim m))).
  assert (Xs : forall d, (0 <= d < m_dim m)%Z -> xc xs d = crd m c d (pc p d)).
  { intros d Hd. unfold xc, xs. rewrite nthZ_map, nthZ_zrange by lia. reflexivity. }
  assert (FL : from_lists (m_dim m) nb p xs).
  { split; [unfold xs; rewrite lenZ_map, zrange_lenZ by lia; lia|]. rewrite interior_pc in Ip. split.
    - intros D2. specialize (Ip 2%Z ltac:(lia)). rewrite (proj1 (mf_flat _ _ F c (or_introl Hc) D2)) in Ip. lia.
    - intros d Hd. destruct (N d d) as (l & El & Nl); [rewrite nthZ_zrange by lia; f_equal|]. exists l. split; [exact Nl|].
      destruct (Hh d Hd) as (k & Ek & Hkk). unfold rd in El. rewrite Ek in El. cbn [bind] in El.
      destruct (flags_periodic m D Hs B types values hist Hb HB r0 per d Hr0 Ep Hd) as (pf & Npf & _). rewrite Npf in El. cbn [bind] in El.
      destruct (neighbours_In m D c d k pf w l Hs Hc Hd El) as [_ J2]. rewrite Xs by auto. pose proof (Ip d ltac:(lia)) as Hr2.
      apply J2; [|exact Hr2]. specialize (Hwin d k Hd (proj1 (host_cell m D Hs d _ k Hd Hkk))). lia. }
  destruct (I2 p xs FL) as (col & v & Ec & _ & Hin). destruct (idx_spec m D c p F Hc Ip) as [Eg _]. rewrite Eg in Ec. injection Ec as <-.
  exists v. exact Hin.
Qed.
End Row.

(** Every event of the log inserts. *)
Lemma any_ins : Forall is_ins log.
Proof.
  apply Forall_forall. intros e He. destruct (log_In m D Hs bodies Hbo B K w log HL) as [I1 _]. destruct (I1 e He) as (b & i & c & row & X & es & Q & Hin).
  destruct Q as (r0 & per & ws & IJK & _ & _ & _ & _ & _ & _ & _ & _ & Ed). destruct (delta_row_In _ _ _ _ _ _ _ _ _ _ _ Ed) as (nb & _ & J & _).
  destruct (J e Hin) as (p & xs & col & v & _ & _ & _ & ->). reflexivity.
Qed.

Lemma any_entry row b i c X id f p r h :
  nthZ (body_layout (nranks D) (m_dim m) (map fst bodies)) row = Some (b, i, c) -> located bodies b i X ->
  (0 <= r < nranks D)%Z -> kept_by bodies b i r -> first_widths m bodies b r h ->
  nthZ (packed_layout (m_dim m) D) id = Some (f, p) ->
  (f = c /\ windowed m w X p -> entry log row id = kernel_at m K h c X p) /\ (~ (f = c /\ windowed m w X p) -> entry log row id = 0).
Proof.
  intros Hrow Hl Hr Hkp Hfw Hid. destruct (log_In m D Hs bodies Hbo B K w log HL) as [I1 I2].
  assert (DA : dec_all (m_dim m) D (m_n m)) by (intros g Hg; apply (mf_dec _ _ F); auto).
  assert (Hfp : (0 <= f < m_dim m)%Z /\ interior (m_n m f) p) by (apply (packed_layout_In (m_dim m) D (m_n m) f p DA); eapply nthZ_In; eauto).
  destruct Hfp as [Hf Hp]. assert (Eid : idx m D f p = id).
  { destruct (idx_spec m D f p F Hf Hp) as [_ A]. eapply nthZ_NoDup_inj; [|exact A|exact Hid]. eapply packed_layout_NoDup; eauto. }
  destruct Hbo as (Hok & _). pose proof (proj1 (body_layout_In _ _ _ Hok b i c) (nthZ_In _ _ _ Hrow)) as (bo & _ & _ & Hc).
  destruct (I2 b i c row Hrow) as (X' & es & Q & Hincl).
  assert (X' = X) by (destruct Q as (? & ? & ? & ? & _ & Hl' & _); eapply located_fun; eauto). subst X'.
  assert (All : forall e, In e log -> ev_row e = row -> ev_col e = id -> f = c /\ windowed m w X p /\ ev_val e = kernel_at m K h c X p).
  { intros e He Er Ec. destruct (I1 e He) as (b' & i' & c' & row' & X' & es' & Q' & Hin).
    assert (ER : row' = row).
    { destruct Q' as (? & ? & ? & ? & _ & _ & _ & _ & _ & _ & _ & _ & Ed'). destruct (delta_row_In _ _ _ _ _ _ _ _ _ _ _ Ed') as (nb & _ & J & _).
      destruct (J e Hin) as (p' & xs & col & v & _ & _ & _ & E0). rewrite E0 in Er. exact Er. }
    subst row'.
    assert (T : (b', i', c') = (b, i, c) /\ X' = X).
    { destruct Q' as (? & ? & ? & ? & _ & Hl' & _ & Hc' & Epk & _). destruct Q as (? & ? & ? & ? & _ & _ & _ & _ & Epk2 & _).
      pose proof (proj1 (proj2 (packed_body_bijection _ _ _ Hok)) b' i' c' b i c row Epk Epk2) as T. split; [exact T|]. injection T as -> -> ->. eapply located_fun; eauto. }
    destruct T as [T ->]. injection T as -> -> ->.
    destruct (any_value b i c row r X es' h Q' Hr Hkp Hfw e Hin) as (p' & Hp' & Hw' & ->). cbn [ev_row ev_col ev_val] in *.
    rewrite <- Eid in Ec. apply idx_inj in Ec; auto. destruct Ec as [-> ->]. auto. }
  split.
  - intros [-> Hwin]. apply entry_same; [apply any_ins|intros e He E1 E2; apply (All e He E1 E2)|]. left.
    destruct (any_complete b i c row X es Q p Hp Hwin) as (v & Hin). exists (mkEv row (idx m D c p) v INSERT_VALUES). split; [now apply Hincl|]. cbn. auto.
  - intros Hno. apply entry_same; [apply any_ins| |now right]. intros e He E1 E2. destruct (All e He E1 E2) as (A1 & A2 & _). exfalso. apply Hno. auto.
Qed.
End Any.
