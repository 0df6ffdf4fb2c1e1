(** When the delta operator can be built. *)
From Coq Require Import String ZifyBool.
From Verif Require Import Prelude ZSum RSum TypesModel GridModel GridSpec GridProof MeshProof IndexModel IndexSpec IndexProof
  BoundaryModel BoundarySpec BoundaryProof OperatorModel OperatorSpec OperatorProof BStateProof BodyModel BodySpec BodyProof BodyUse
  DeltaModel DeltaSpec DeltaKernel DeltaProof DeltaOp.
Local Open Scope R_scope.

Lemma foldM_each {A S} (f : S -> A -> res S) l s s' : foldM f l s = Ok s' -> forall a, In a l -> exists s1 s2, f s1 a = Ok s2.
Proof.
  revert s. induction l as [|b t IH]; intros s E a Ha; [destruct Ha|]. cbn [foldM] in E. apply bind_ok_inv in E. destruct E as (s1 & E1 & E).
  destruct Ha as [<-|Ha]; [eauto|]. eapply IH; eauto.
Qed.

Section Def.
Context (m : mesh) (D : dec) (Hs : mesh_setup m D).
Context (bodies : list (body * list (list R))) (Hbo : bodies_ok m D bodies).
Context (B : boundary) (name : string) (K : kernel) (w : Z) (HK : getKernel name = Ok (K, w)).
Context (types : Z -> Z -> bctype) (values : Z -> Z -> R) (hist : list bop) (Hb : bc_fits m types) (HB : boundary_after m D types values hist B).
Let F := setup_facts m D Hs.

Lemma vcoord f d s : (0 <= f < m_dim m)%Z -> (0 <= d < m_dim m)%Z -> (-1 <= s <= m_n m f d)%Z ->
  m_coord m f d s = Ok (crd m f d s) /\ m_dL m f d s = Ok (wid m f d s).
Proof.
  intros Hf Hd Hr. pose proof Hs as (mn & mx & per & w0 & np & Hg & Hm & _).
  destruct (mesh_velocity _ _ _ _ _ _ Hg Hm f d Hf Hd) as (En & Hc & _). rewrite En in Hr. destruct (Hc s Hr) as [E1 E2].
  unfold crd, wid. rewrite E1, E2. auto.
Qed.

Lemma neighbours_ok c d k per : (0 <= c < m_dim m)%Z -> (0 <= d < m_dim m)%Z -> (0 <= w)%Z ->
  (exists l, neighbours m c d k per w = Ok l) <-> (per = true -> (-1 <= k - w \/ 0 <= k - w < m_n m c d)%Z /\ (k + w <= m_n m c d)%Z).
Proof.
  intros Hc Hd Hw. pose proof (mf_np _ _ F c d (or_introl Hc) ltac:(destruct (mf_dim _ _ F); lia)) as Np. split.
  - intros (l & E) ->. unfold neighbours in E.
    assert (G : forall s, (k - w <= s <= k + w)%Z -> (-1 <= s <= m_n m c d)%Z).
    { intros s Hr. destruct (foldM_each _ _ _ _ E s) as (s1 & s2 & E1); [apply zrange_In; lia|]. cbv beta zeta in E1.
      destruct ((0 <=? s)%Z && (s <? m_n m c d)%Z) eqn:Bd; [lia|].
      destruct (s <? 0)%Z; apply bind_ok_inv in E1; destruct E1 as (x & Ex & _);
        exact (proj1 (coord_range m D c d s x Hs Hc Hd Ex)). }
    pose proof (G (k - w)%Z ltac:(lia)). pose proof (G (k + w)%Z ltac:(lia)). lia.
  - intros Hp. unfold neighbours. apply foldM_ex. intros s acc Hr. apply zrange_In in Hr. cbv beta zeta.
    destruct ((0 <=? s)%Z && (s <? m_n m c d)%Z) eqn:Bd; [rewrite (proj1 (vcoord c d s Hc Hd ltac:(lia))); cbn [bind]; eauto|].
    destruct per; [|eauto]. specialize (Hp eq_refl).
    destruct (s <? 0)%Z; rewrite (proj1 (vcoord c d s Hc Hd ltac:(lia))); cbn [bind]; eauto.
Qed.

Lemma w_pos : (2 <= w)%Z.
Proof. destruct (getKernel_cases _ _ _ HK) as [(_ & _ & -> & _)|(_ & _ & -> & _)]; lia. Qed.

Lemma defined_needs log : createDelta m D B K w bodies = Ok log ->
  (forall b i X, located bodies b i X -> inside_domain m X /\ in_reach m types w X) /\
  (forall b bc r, nthZ bodies b = Some bc -> (0 <= r < nranks D)%Z -> (0 < b_l (fst bc) r)%Z).
Proof.
  intros HL. pose proof (mf_dim _ _ F) as Hdim. split.
  - intros b i X Hl. destruct Hl as (bc & Eb & EX). destruct Hbo as (Hok & Hf).
    assert (Rows : forall c, (0 <= c < m_dim m)%Z -> exists row, nthZ (body_layout (nranks D) (m_dim m) (map fst bodies)) row = Some (b, i, c)).
    { intros c Hc. assert (In (b, i, c) (body_layout (nranks D) (m_dim m) (map fst bodies))) as Hin.
      { apply (body_layout_In _ _ _ Hok). exists (fst bc). rewrite nthZ_map, Eb. split; [reflexivity|]. split; [|exact Hc].
        rewrite Forall_forall in Hf. destruct (Hf bc (nthZ_In _ _ _ Eb)) as [L _]. rewrite <- L. eapply nthZ_Some_range; eauto. }
      apply In_nthZ in Hin. destruct Hin as (row & _ & E). eauto. }
    assert (PR : forall c, (0 <= c < m_dim m)%Z -> exists row es, point_row m D B K w bodies b i c row X es).
    { intros c Hc. destruct (Rows c Hc) as (row & Er). destruct (log_In m D Hs bodies Hbo B K w log HL) as [_ I2].
      destruct (I2 b i c row Er) as (X' & es & Q & _). exists row, es.
      assert (X' = X). { destruct Q as (? & ? & ? & ? & _ & (bc' & E1 & E2) & _). rewrite Eb in E1. injection E1 as <-. congruence. }
      subst X'. exact Q. }
    split.
    + intros d Hd. destruct (PR 0%Z ltac:(lia)) as (row & es & r & per & ws & IJK & _ & _ & _ & _ & _ & _ & _ & Hh & _).
      destruct (Hh d Hd) as (k & _ & Hk). apply (host_cell m D Hs d _ k Hd Hk).
    + intros d k' Hd Ht Hx.
      assert (G : forall c, (0 <= c < m_dim m)%Z -> (w - 1 <= k')%Z /\ (k' + w <= m_n m c d)%Z).
      { intros c Hc. destruct (PR c Hc) as (row & es & r & per & ws & IJK & (Hr & _) & _ & _ & _ & _ & Ep & _ & Hh & Ed).
        destruct (Hh d Hd) as (k & Ek & Hk). assert (k = k') by exact (cell_unique m D Hs d _ k k' Hd (proj1 (host_cell m D Hs d _ k Hd Hk)) Hx). subst k'.
        unfold delta_row in Ed. apply bind_ok_inv in Ed. destruct Ed as (nb & En & _).
        destruct (mapM_inv _ _ _ En) as [_ N]. destruct (N d d) as (l & El & _); [rewrite nthZ_zrange by lia; f_equal|].
        unfold rd in El. rewrite Ek in El. cbn [bind] in El.
        destruct (flags_periodic m D Hs B types values hist Hb HB r per d Hr Ep Hd) as (pf & Npf & Epf). rewrite Npf in El. cbn [bind] in El.
        pose proof w_pos. pose proof (proj1 (neighbours_ok c d k pf Hc Hd ltac:(lia)) (ex_intro _ l El)) as G.
        rewrite Ht in Epf. specialize (G Epf). lia. }
      split; [apply (G 0%Z ltac:(lia))|]. intros c Hc. apply (G c Hc).
  - intros b bc r Eb Hr. unfold createDelta in HL. apply bind_ok_inv in HL. destruct HL as (logs & EL & _).
    destruct (mapM_inv _ _ _ EL) as [_ N]. destruct (N r r) as (evs & Ev & _); [rewrite nthZ_zrange by lia; f_equal|].
    apply bind_ok_inv in Ev. destruct Ev as (mi & Em & Ev). unfold createDelta_rank in Ev. apply bind_ok_inv in Ev. destruct Ev as (per & _ & Ev).
    destruct (foldM_each _ _ _ _ Ev b) as (s1 & s2 & E1); [apply zrange_In; eapply nthZ_Some_range; eauto|]. cbv beta in E1.
    apply bind_ok_inv in E1. destruct E1 as (bc' & Eb' & E1). apply rd_Ok in Eb'. rewrite Eb in Eb'. injection Eb' as <-.
    apply bind_ok_inv in E1. destruct E1 as (mib & Emi & E1). apply rd_Ok in Emi.
    apply bind_ok_inv in E1. destruct E1 as (ws & Ew & _).
    destruct (mi_facts m D bodies Hbo r mi b bc Em Eb Hr) as (mib' & Emi' & Lm & _). rewrite Emi in Emi'. injection Emi' as <-.
    rewrite <- Lm. unfold delta_widths in Ew. destruct (mapM_inv _ _ _ Ew) as [_ N2].
    destruct (N2 0%Z 0%Z) as (v & Ev0 & _); [rewrite nthZ_zrange by lia; f_equal|]. apply bind_ok_inv in Ev0. destruct Ev0 as (l0 & E0 & _).
    apply rd_Ok in E0. apply nthZ_Some_range in E0. lia.
Qed.

Lemma row_ok r per ws IJK X c row : (0 <= r < nranks D)%Z -> lenZ X = m_dim m -> delta_flags m (B r) = Ok per -> lenZ ws = m_dim m -> (forall d, (0 <= d < m_dim m)%Z -> exists v, nthZ ws d = Some v /\ 0 < v) ->
  hosts m IJK X -> in_reach m types w X -> (0 <= c < m_dim m)%Z ->
  exists evs, delta_row m D K w per ws IJK X c row = Ok evs.
Proof.
  intros Hr LX Ep Lw Hws Hh Hreach Hc. pose proof (mf_dim _ _ F) as Hdim. pose proof w_pos as W.
  assert (NB : exists nb, getEulerianNeighbors m c IJK per w = Ok nb).
  { apply mapM_ex. intros d Hd. apply zrange_In in Hd. destruct (Hh d Hd) as (k & Ek & Hk). unfold rd. rewrite Ek. cbn [bind].
    destruct (flags_periodic m D Hs B types values hist Hb HB r per d Hr Ep Hd) as (pf & Npf & Epf). rewrite Npf. cbn [bind].
    apply neighbours_ok; auto; [lia|]. intros ->. destruct (host_cell m D Hs d _ k Hd Hk) as (Hx & _). pose proof Hx as (Rk & _).
    destruct (Hreach d k Hd) as [H1 H2]; [destruct (types 0%Z d); try discriminate; reflexivity|exact Hx|].
    specialize (H2 c Hc). lia. }
  destruct NB as (nb & En). unfold delta_row. rewrite En. cbn [bind].
  destruct (mapM_inv _ _ _ En) as [_ N].
  assert (NL : forall d, (0 <= d < m_dim m)%Z -> exists l, nthZ nb d = Some l /\ forall i x, In (i, x) l -> (0 <= i < m_n m c d)%Z).
  { intros d Hd. destruct (N d d) as (l & El & Nl); [rewrite nthZ_zrange by lia; f_equal|]. exists l. split; [exact Nl|].
    apply bind_ok_inv in El. destruct El as (k & _ & El). apply bind_ok_inv in El. destruct El as (pf & _ & El).
    destruct (neighbours_In m D c d k pf w l Hs Hc Hd El) as [I1 _]. pose proof (mf_np _ _ F c d (or_introl Hc) ltac:(lia)).
    intros i x Hin. destruct (I1 i x Hin) as [(A & _)|[(_ & -> & _)|(_ & -> & _)]]; lia. }
  assert (Step : forall p xs log, interior (m_n m c) p -> lenZ xs = m_dim m -> exists log',
     (do col <- gidx m D c (st_of p); do v <- delta X xs ws K; Ok (log ++ [mkEv row col v INSERT_VALUES])) = Ok log').
  { intros p xs log Hp Lx. rewrite (proj1 (idx_spec m D c p F Hc Hp)). cbn [bind].
    rewrite (delta_prod (m_dim m) name K w (fun d => match nthZ ws d with Some v => v | None => 0 end) X xs ws); auto; [cbn [bind]; eauto|].
    intros d Hd. destruct (Hws d Hd) as (v & -> & Hv). auto. }
  destruct (NL 0%Z ltac:(lia)) as (n0 & N0 & B0). destruct (NL 1%Z ltac:(lia)) as (n1 & N1 & B1).
  destruct (Z.eqb_spec (m_dim m) 3) as [D3|D3].
  - destruct (NL 2%Z ltac:(lia)) as (n2 & N2 & B2). unfold rd. rewrite N0, N1, N2. cbn [bind].
    apply foldM_ex. intros [k z] s2 H2. apply foldM_ex. intros [j y] s1 H1. apply foldM_ex. intros [i x] s0 H0. cbn [fst snd].
    apply (Step (i, j, k) [x; y; z]); [|rewrite D3; reflexivity]. pose proof (B0 _ _ H0). pose proof (B1 _ _ H1). pose proof (B2 _ _ H2).
    unfold interior; cbn [fst snd]. auto.
  - assert (D2 : m_dim m = 2%Z) by lia. rewrite D2. change (2 =? 2)%Z with true. cbv iota. unfold rd. rewrite N0, N1. cbn [bind].
    apply foldM_ex. intros [j y] s1 H1. apply foldM_ex. intros [i x] s0 H0. cbn [fst snd].
    apply (Step (i, j, 0%Z) [x; y]); [|rewrite D2; reflexivity]. pose proof (B0 _ _ H0). pose proof (B1 _ _ H1).
    pose proof (proj1 (mf_flat _ _ F c (or_introl Hc) D2)). unfold interior; cbn [fst snd]. lia.
Qed.

Lemma defined_when :
  (forall b i X, located bodies b i X -> inside_domain m X /\ in_reach m types w X) ->
  (forall b bc r, nthZ bodies b = Some bc -> (0 <= r < nranks D)%Z -> (0 < b_l (fst bc) r)%Z) ->
  exists log, createDelta m D B K w bodies = Ok log.
Proof.
  intros Hin Hpos. pose proof (mf_dim _ _ F) as Hdim. pose proof Hbo as (Hok & Hf).
  unfold createDelta.
  assert (G : exists logs, mapM (fun r => do mi <- bp_updateMeshIdx m (m_dim m) bodies r; createDelta_rank m D (B r) K w bodies mi r) (zrange 0 (nranks D)) = Ok logs).
  2: { destruct G as (logs & ->). cbn [bind]. eauto. }
  apply mapM_ex. intros r Hr. apply zrange_In in Hr.
  assert (Mi : exists mi, bp_updateMeshIdx m (m_dim m) bodies r = Ok mi).
  { apply mapM_ex. intros bc Hbc. apply In_nthZ in Hbc. destruct Hbc as (b & _ & Eb).
    destruct (bg_bounds m D bodies Hbo b bc r Eb Hr) as (B0 & B1 & B2).
    apply mapM_ex. intros i Hi. apply zrange_In in Hi. unfold b_ed in Hi.
    destruct (body_facts m D bodies Hbo b bc Eb) as (_ & Lc & Hl).
    destruct (nthZ_in_range (snd bc) i) as (X & EX); [unfold b_ed in Hi; lia|]. unfold rd at 1. rewrite EX. cbn [bind].
    rewrite Forall_forall in Hl. pose proof (Hl X (nthZ_In _ _ _ EX)) as LX.
    apply mapM_ex. intros d Hd. apply zrange_In in Hd. destruct (nthZ_in_range X d) as (x & Ex); [lia|]. unfold rd. rewrite Ex. cbn [bind].
    destruct (Hin b i X) as [HI _]; [exists bc; auto|]. specialize (HI d Hd). unfold xc in HI. rewrite Ex in HI.
    pose proof Hs as (mn & mx & per & w0 & np & Hg & Hm & _).
    destruct (createMesh_misc _ _ _ _ _ _ Hm) as (Ed & Emin & Emax & _). rewrite Emin, Emax in HI. 
    destruct (host_ok _ _ _ _ _ _ Hg Hm d x ltac:(lia) HI) as (k & Ek & _). eauto. }
  destruct Mi as (mi & Emi). rewrite Emi. cbn [bind]. unfold createDelta_rank.
  assert (Fl : exists per, delta_flags m (B r) = Ok per).
  { apply mapM_ex. intros d Hd. apply zrange_In in Hd. rewrite (after_pure m D types values hist B r F Hb HB Hr). unfold pure_state.
    unfold rd at 1. rewrite nthZ_map, nthZ_zrange by lia. cbn [option_map bind].
    unfold rd. rewrite nthZ_map, nthZ_zrange by lia. cbn [option_map bind]. eauto. }
  destruct Fl as (per & Ep). rewrite Ep. cbn [bind].
  apply foldM_ex. intros b s Hb0. apply zrange_In in Hb0. destruct (nthZ_in_range bodies b Hb0) as (bc & Eb).
  unfold rd at 1. rewrite Eb. cbn [bind]. destruct (mi_facts m D bodies Hbo r mi b bc Emi Eb Hr) as (mib & Em & Lm & Hm).
  unfold rd at 1. rewrite Em. cbn [bind].
  assert (W : exists ws, delta_widths m mib = Ok ws).
  { apply mapM_ex. intros d Hd. apply zrange_In in Hd. destruct (Hm 0%Z) as (X & IJK & NI & _ & _ & Hh); [pose proof (Hpos b bc r Eb Hr); lia|].
    unfold rd at 1. rewrite NI. cbn [bind]. destruct (Hh d Hd) as (k & Ek & Hk). unfold rd. rewrite Ek. cbn [bind].
    destruct (host_cell m D Hs d _ k Hd Hk) as ((Rk & _) & _). pose proof (n_own_oth m D Hs 0 d ltac:(lia) Hd).
    rewrite (proj2 (vcoord 0 d k ltac:(lia) Hd ltac:(lia))). eauto. }
  destruct W as (ws & Ew). rewrite Ew. cbn [bind].
  assert (WA : body_widths m bodies b r ws).
  { destruct (Hm 0%Z) as (X & IJK & NI & NX & _ & Hh); [pose proof (Hpos b bc r Eb Hr); lia|]. rewrite Z.add_0_r in NX. apply (widths_facts m D Hs bodies mib ws b bc r X); auto. rewrite NI. exact Hh. }
  apply foldM_ex. intros i s0 Hi. apply zrange_In in Hi. destruct (Hm i Hi) as (X & IJK & NI & NX & LX & Hh).
  unfold rd at 1. rewrite NI. cbn [bind]. unfold rd at 1. rewrite NX. cbn [bind].
  apply foldM_ex. intros c s1 Hc. apply zrange_In in Hc.
  destruct (bg_bounds m D bodies Hbo b bc r Eb Hr) as (B0 & B1 & B2).
  destruct (packed_body _ _ _ Hok b (fst bc) (b_bg (fst bc) r + i) c) as (r' & row & _ & _ & _ & -> & _);
    [rewrite nthZ_map, Eb; reflexivity|lia|exact Hc|]. cbn [bind].
  destruct (Hin b (b_bg (fst bc) r + i)%Z X) as [_ HR]; [exists bc; auto|].
  destruct (row_ok r per ws IJK X c row Hr LX Ep (proj1 WA) (body_widths_pos m D Hs bodies b r ws WA) Hh HR Hc) as (evs & ->). cbn [bind]. eauto.
Qed.
End Def.
