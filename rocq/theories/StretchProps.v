(** C80. Bodies on stretched meshes. Immersed-boundary runs need equal cells
    only around the bodies; what the delta operator holds on any mesh, and that
    it then depends on the processes that hold the points. *)
From Coq Require Import Lia ZifyBool String List.
Import ListNotations.
From Verif Require Import Prelude ZSum RSum TypesModel GridModel GridSpec GridProof GridProps MeshProof
  IndexModel IndexSpec IndexProof BoundaryModel BoundarySpec BoundaryProof OperatorModel OperatorSpec OperatorProof BStateProof
  MatModel NSModel NSSpec NSProof BodyModel BodySpec BodyProof BodyProps DeltaModel DeltaSpec DeltaKernel DeltaProof DeltaSum DeltaProps IbpmModel IbpmSpec IbpmProps
  ExampleSetup IbGridSpec IbGridProof IbGridProps StretchSpec StretchProof.
Local Open Scope R_scope.

(** C80. The entries of the operator on any mesh (no direction taken to be
    periodic): the product of the kernel, with the widths at the first point of
    the body on the process that holds the point, for the grid points of the
    same component in the window of the cell of the point; 0 elsewhere. *)
Theorem delta_entries_on_any_mesh : forall m D B name K w bodies log types values hist row b i c X id f p r h,
  mesh_setup m D -> bodies_ok m D bodies -> getKernel name = Ok (K, w) ->
  bc_fits m types -> boundary_after m D types values hist B -> (forall d, (0 <= d < m_dim m)%Z -> types 0%Z d <> PERIODIC) ->
  createDelta m D B K w bodies = Ok log ->
  nthZ (body_layout (nranks D) (m_dim m) (map fst bodies)) row = Some (b, i, c) -> located bodies b i X ->
  (0 <= r < nranks D)%Z -> kept_by bodies b i r -> first_widths m bodies b r h ->
  nthZ (packed_layout (m_dim m) D) id = Some (f, p) ->
  (f = c /\ windowed m w X p -> entry log row id = kernel_at m K h c X p) /\
  (~ (f = c /\ windowed m w X p) -> entry log row id = 0).
Proof.
  intros m D B name K w bodies log types values hist row b i c X id f p r h Hs Hbo HK Hb HB Hwall HL Hrow Hl Hr Hk Hfw Hid.
  exact (any_entry m D Hs bodies Hbo B name K w HK log HL types values hist Hb HB Hwall row b i c X id f p r h Hrow Hl Hr Hk Hfw Hid).
Qed.
Print Assumptions delta_entries_on_any_mesh.

(** * A stretched 9 x 9 mesh *)
(** The outer cells are twice as wide as the others. *)
Definition st_mx (d : Z) : R := 11.
Definition st_w (d : Z) : list R := [2; 1; 1; 1; 1; 1; 1; 1; 2].
Definition st_mesh (px py : bool) : mesh := ok_or no_mesh (createMeshArrays 2 ex_mn st_mx (ex_per px py) st_w).
Definition st_dec (px py : bool) : dec := default_dec ex_np (m_n (st_mesh px py)).
Definition st_dec1 : dec := default_dec (fun _ => 1%Z) (m_n (st_mesh false false)).

Lemma st_dim px py : m_dim (st_mesh px py) = 2%Z.
Proof. destruct px, py; reflexivity. Qed.
Lemma st_create px py : createMeshArrays 2 ex_mn st_mx (ex_per px py) st_w = Ok (st_mesh px py).
Proof. destruct px, py; reflexivity. Qed.
Lemma st_grid : grid_ok 2 ex_mn st_mx st_w.
Proof.
  split; [left; reflexivity|]. intros d Hd. unfold st_w, st_mx, ex_mn, positive, GridSpec.total.
  split; [discriminate|split; [repeat (apply Forall_cons; [lra|]); apply Forall_nil|simpl; lra]].
Qed.
Lemma st_setup px py : mesh_setup (st_mesh px py) (st_dec px py).
Proof.
  exists ex_mn, st_mx, (ex_per px py), st_w, ex_np.
  rewrite !st_dim. split; [exact st_grid|]. split; [apply st_create|]. split; [reflexivity|].
  split; [intros d Hd; unfold ex_np; destruct (d =? 0)%Z; lia|]. split; [reflexivity|].
  destruct px, py; reflexivity.
Qed.
Lemma st_setup1 : mesh_setup (st_mesh false false) st_dec1.
Proof.
  exists ex_mn, st_mx, (ex_per false false), st_w, (fun _ => 1%Z).
  rewrite !st_dim. split; [exact st_grid|]. split; [apply st_create|]. split; [reflexivity|]. split; [intros; lia|]. split; reflexivity.
Qed.
Lemma st_fits px py : bc_fits (st_mesh px py) (un_types px py).
Proof.
  intros f loc Hf Hl. rewrite st_dim in Hl.
  assert (loc = 0 \/ loc = 1 \/ loc = 2 \/ loc = 3)%Z as [->|[->|[->| ->]]] by lia;
    destruct px, py; (split; [discriminate|split; [discriminate || reflexivity|discriminate || reflexivity]]).
Qed.
Lemma st_box px py d : m_min (st_mesh px py) d = 0 /\ m_max (st_mesh px py) d = 11.
Proof. destruct (createMesh_misc _ _ _ _ _ _ (st_create px py)) as (_ & -> & -> & _). split; reflexivity. Qed.
Lemma st_n px py d : (0 <= d < 2)%Z -> m_n (st_mesh px py) 3 d = 9%Z.
Proof. intros Hd. destruct (mesh_pressure _ _ _ _ _ _ (st_create px py) d Hd) as (-> & _). reflexivity. Qed.
Lemma st_vert px py d k : (0 <= d < 2)%Z -> (1 <= k <= 8)%Z -> crd (st_mesh px py) 4 d k = IZR (k + 1).
Proof.
  intros Hd Hk. destruct (mesh_vertex _ _ _ _ _ _ (st_create px py) d Hd) as (_ & Hv & _). unfold crd. rewrite Hv by (change (lenZ (st_w d)) with 9%Z; lia). cbn [ok_or].
  unfold vtx, ex_mn, GridSpec.total, st_w. assert (k = 1 \/ k = 2 \/ k = 3 \/ k = 4 \/ k = 5 \/ k = 6 \/ k = 7 \/ k = 8)%Z as Hc by lia.
  repeat destruct Hc as [->|Hc]; [..|subst k];
    match goal with |- context [Z.to_nat ?n] => let v := eval vm_compute in (Z.to_nat n) in change (Z.to_nat n) with v end; cbn [firstn sumR]; rewrite plus_IZR; lra.
Qed.
Lemma st_wid px py d j : (0 <= d < 2)%Z -> (0 <= j < 9)%Z -> wid (st_mesh px py) 3 d j = if (1 <=? j)%Z && (j <=? 7)%Z then 1 else 2.
Proof.
  intros Hd Hj. destruct (mesh_pressure _ _ _ _ _ _ (st_create px py) d Hd) as (_ & Hw & _). change (lenZ (st_w d)) with 9%Z in *. unfold wid. rewrite (proj2 (Hw j Hj)). cbn [ok_or].
  rewrite vtx_S by (change (lenZ (st_w d)) with 9%Z; lia).
  assert (j = 0 \/ j = 1 \/ j = 2 \/ j = 3 \/ j = 4 \/ j = 5 \/ j = 6 \/ j = 7 \/ j = 8)%Z as Hc by lia.
  repeat destruct Hc as [->|Hc]; [..|subst j]; cbn [Z.leb Z.compare Pos.compare Pos.compare_cont andb];
    match goal with |- context [wd ?l ?n] => let v := eval cbv in (wd l n) in change (wd l n) with v end; lra.
Qed.
Lemma st_cell px py d x : (0 <= d < 2)%Z -> 5 <= x < 6 -> cell_of (st_mesh px py) d 4 x.
Proof. intros Hd Hx. split; [rewrite st_n by auto; lia|]. rewrite !st_vert by (auto; lia). cbn. lra. Qed.
Lemma st_cell0 px py d x : (0 <= d < 2)%Z -> 0 <= x < 2 -> cell_of (st_mesh px py) d 0 x.
Proof.
  intros Hd Hx. split; [rewrite st_n by auto; lia|]. change (0 + 1)%Z with 1%Z. rewrite (st_vert px py d 1 Hd) by lia.
  rewrite (proj1 (vert_ends _ _ (st_setup px py) d ltac:(rewrite st_dim; exact Hd))), (proj1 (st_box px py d)). cbn. lra.
Qed.
(** It is not uniform, whatever the width. *)
Lemma st_stretched px py h : ~ uniform (st_mesh px py) h.
Proof.
  intros Hu. destruct (Hu 0%Z ltac:(rewrite st_dim; lia)) as [_ Hw]. pose proof (Hw 0%Z ltac:(rewrite st_n; lia)) as W0. pose proof (Hw 1%Z ltac:(rewrite st_n; lia)) as W1.
  rewrite st_wid in W0, W1 by lia. cbn in W0, W1. lra.
Qed.
(** But it is around bodies in its middle cell. *)
Lemma st_around px py w bodies : (w <= 3)%Z -> (forall b i X d, located bodies b i X -> (0 <= d < 2)%Z -> 5 <= xc X d < 6) -> uniform_around (st_mesh px py) unit_h w bodies.
Proof.
  intros Hw Hm. split; [intros; unfold unit_h; lra|]. intros b i X d k j Hl Hd Hc Hj Hn. rewrite st_dim in Hd.
  assert (k = 4)%Z as -> by (apply (cell_unique _ _ (st_setup px py) d (xc X d)); [rewrite st_dim; exact Hd|exact Hc|apply st_cell; eauto]).
  unfold near_cell in Hn. rewrite st_n in Hj, Hn by auto. rewrite st_wid by auto. unfold unit_h.
  assert (1 <= j <= 7)%Z by lia. destruct (Z.leb_spec 1 j); [|lia]. destruct (Z.leb_spec j 7); [reflexivity|lia].
Qed.
Lemma st_wide px py w : (w <= 3)%Z -> wide_enough (st_mesh px py) w.
Proof.
  intros Hw _ f d Hf Hd. rewrite st_dim in Hf, Hd. 
  assert (f = 0 \/ f = 1)%Z as [->| ->] by lia; assert (d = 0 \/ d = 1)%Z as [->| ->] by lia; destruct px, py;
    match goal with |- (_ <= ?n)%Z => let v := eval vm_compute in n in change n with v end; lia.
Qed.
Lemma st_reach px py w X : (w <= 3)%Z -> (forall d, (0 <= d < 2)%Z -> 5 <= xc X d < 6) -> inside_domain (st_mesh px py) X /\ in_reach (st_mesh px py) (un_types px py) w X.
Proof.
  intros Hw HX. split.
  - intros d Hd. rewrite st_dim in Hd. destruct (st_box px py d) as [-> ->]. specialize (HX d Hd). lra.
  - intros d k Hd _ Hk. rewrite st_dim in Hd.
    assert (k = 4)%Z as -> by (apply (cell_unique _ _ (st_setup px py) d (xc X d)); [rewrite st_dim; exact Hd|exact Hk|apply st_cell; auto]).
    split; [lia|]. intros c Hc. rewrite st_dim in Hc.
    assert (c = 0 \/ c = 1)%Z as [->| ->] by lia; assert (d = 0 \/ d = 1)%Z as [->| ->] by lia; destruct px, py;
      match goal with |- (_ <= ?n)%Z => let v := eval vm_compute in n in change n with v end; lia.
Qed.
Lemma st_pair_ok px py X Y : lenZ X = 2%Z -> lenZ Y = 2%Z -> bodies_ok (st_mesh px py) (st_dec px py) (pair X Y).
Proof.
  intros HX HY. unfold bodies_ok. rewrite st_dim. replace (nranks (st_dec px py)) with 2%Z by (destruct px, py; reflexivity). split.
  - split; [lia|]. split; [lia|]. repeat constructor; try apply default_distribution; lia.
  - repeat constructor; auto.
Qed.
Lemma st_solo_ok X Y : lenZ X = 2%Z -> lenZ Y = 2%Z -> bodies_ok (st_mesh false false) st_dec1 (solo X Y).
Proof.
  intros HX HY. unfold bodies_ok. rewrite st_dim. replace (nranks st_dec1) with 1%Z by reflexivity. split.
  - split; [lia|]. split; [lia|]. repeat constructor; try apply default_distribution; lia.
  - repeat constructor; auto.
Qed.

(** C80. The premises of C28-C30, C49, C59, C78 and C79 can be met on a
    stretched mesh: with two points in the middle cell, whatever the boundary
    conditions and the kernel, and the coupled and the decoupled run go on for
    any number of steps. *)
Example stretched_case : forall px py name values conv vs ps fs P U0 p0 k K w, getKernel name = Ok (K, w) -> (1 <= p_bn P)%Z -> (forall B x, is_ok (conv B x)) ->
  let m := st_mesh px py in let D := st_dec px py in let bodies := pair [11 / 2; 11 / 2] [21 / 4; 23 / 4] in
  mesh_setup m D /\ (forall h, ~ uniform m h) /\ uniform_around m unit_h w bodies /\ bodies_ok m D bodies /\ bc_fits m (un_types px py) /\ wide_enough m w /\
  (forall b i X, located bodies b i X -> clear m unit_h (radius name) X) /\
  (exists B E H, boundary_after m D (un_types px py) values [OpICs U0] B /\ ib_operators m D B name bodies = Ok (E, H)) /\
  (exists O s0 s, ib_init m D P (un_types px py) values name bodies 0 0 U0 p0 = Ok (O, s0) /\ run_steps (ib_advance m D P O conv vs ps) k s0 = Ok s) /\
  (exists O X x0 x, d_init m D P (un_types px py) values name bodies 0 0 U0 p0 = Ok (O, X, x0) /\
     run_steps (d_advance m D P O X (n_forces m bodies) conv (d_assembleRHSForces m X) vs ps fs) k x0 = Ok x).
Proof.
  intros px py name values conv vs ps fs P U0 p0 k K w HK Hn Hcv m D bodies.
  pose proof (st_setup px py) as Hs. pose proof (st_fits px py) as Hb. pose proof (st_pair_ok px py [11 / 2; 11 / 2] [21 / 4; 23 / 4] eq_refl eq_refl) as Hbo.
  assert (W : (w <= 3)%Z) by (destruct (getKernel_cases _ _ _ HK) as [(_ & _ & -> & _)|(_ & _ & -> & _)]; lia).
  assert (Mid : forall b i X d, located bodies b i X -> (0 <= d < 2)%Z -> 5 <= xc X d < 6).
  { intros b i X d Hl Hd. apply pair_located in Hl. destruct Hl as (_ & [(_ & ->)|(_ & ->)]); assert (d = 0 \/ d = 1)%Z as [->| ->] by lia; rewrite ?xc0, ?xc1; lra. }
  assert (Rch : forall b i X, located bodies b i X -> inside_domain m X /\ in_reach m (un_types px py) w X) by (intros b i X Hl; apply st_reach; eauto).
  assert (Rnk : forall b bc r, nthZ bodies b = Some bc -> (0 <= r < nranks D)%Z -> (0 < b_l (fst bc) r)%Z).
  { intros b bc r Eb Hr. apply (pair_ranks px py [11 / 2; 11 / 2] [21 / 4; 23 / 4] b bc r Eb). replace (nranks (un_dec px py)) with (nranks D) by (destruct px, py; reflexivity). exact Hr. }
  split; [exact Hs|]. split; [intros h; apply st_stretched|]. split; [now apply st_around|]. split; [exact Hbo|]. split; [exact Hb|]. split; [now apply st_wide|]. split; [|split; [|split]].
  - intros b i X Hl d Hd. unfold m in *. rewrite st_dim in Hd. destruct (st_box px py d) as [-> ->]. unfold unit_h. specialize (Mid b i X d Hl Hd).
    assert (radius name <= 2) by (destruct (getKernel_cases _ _ _ HK) as [(_ & _ & _ & ->)|(_ & _ & _ & ->)]; lra). lra.
  - pose proof (pure_after m D (un_types px py) values [OpICs U0] (setup_facts _ _ Hs) Hb) as HB.
    match type of HB with boundary_after _ _ _ _ _ ?b => set (B := b) in HB end.
    destruct (proj2 (delta_defined m D B name K w bodies _ _ _ Hs Hbo HK Hb HB) (conj Rch Rnk)) as (log & El).
    exists B. unfold ib_operators. destruct (AlgebraProps.diagonal_operators m D Hs) as (Rm & Ri & Mm & Mq & Id & ER & _ & EM & _).
    rewrite ER, EM, HK. cbn [bind fst snd]. rewrite El. cbn [bind]. eauto.
  - apply (coupled_never_fails m D P (un_types px py) values name bodies K w conv vs ps 0 0 U0 p0 k Hs Hb Hbo HK Hn Rch Rnk). intros hist B x _. apply Hcv.
  - apply (decoupled_never_fails m D P (un_types px py) values name bodies K w conv vs ps fs 0 0 U0 p0 k Hs Hb Hbo HK Hn Rch Rnk). intros hist B x _. apply Hcv.
Qed.

(** C80, finding: on a mesh that is not uniform around the body, the operator
    depends on the process grid. The same mesh and the same two points, one in a
    wide cell and one in a narrow cell, on one process and on two: the entries
    between the second point and the same grid point differ. *)
Theorem delta_entries_independent_of_grid_refuted : forall name K w values v0, getKernel name = Ok (K, w) ->
  exists m D1 D2 types bs1 bs2 B1 B2 log1 log2 row1 row2 id1 id2 b i c f p,
    mesh_setup m D1 /\ mesh_setup m D2 /\ bc_fits m types /\ bodies_ok m D1 bs1 /\ bodies_ok m D2 bs2 /\ same_points bs1 bs2 /\
    boundary_after m D1 types values [OpICs v0] B1 /\ boundary_after m D2 types values [OpICs v0] B2 /\
    createDelta m D1 B1 K w bs1 = Ok log1 /\ createDelta m D2 B2 K w bs2 = Ok log2 /\
    nthZ (body_layout (nranks D1) (m_dim m) (map fst bs1)) row1 = Some (b, i, c) /\ nthZ (body_layout (nranks D2) (m_dim m) (map fst bs2)) row2 = Some (b, i, c) /\
    nthZ (packed_layout (m_dim m) D1) id1 = Some (f, p) /\ nthZ (packed_layout (m_dim m) D2) id2 = Some (f, p) /\
    entry log1 row1 id1 <> entry log2 row2 id2.
Proof.
  intros name K w values v0 HK. set (m := st_mesh false false). set (D1 := st_dec false false). set (D2 := st_dec1). set (types := un_types false false).
  set (Y := [1; 11 / 2]). set (X := [11 / 2; 5]). set (bs1 := pair Y X). set (bs2 := solo Y X).
  assert (Hs1 : mesh_setup m D1) by apply st_setup. assert (Hs2 : mesh_setup m D2) by apply st_setup1. assert (Hb : bc_fits m types) by apply st_fits.
  assert (Hbo1 : bodies_ok m D1 bs1) by (apply st_pair_ok; reflexivity). assert (Hbo2 : bodies_ok m D2 bs2) by (apply st_solo_ok; reflexivity).
  assert (Hm2 : m_dim m = 2%Z) by apply st_dim.
  assert (W : (2 <= w <= 3)%Z) by (destruct (getKernel_cases _ _ _ HK) as [(_ & _ & -> & _)|(_ & _ & -> & _)]; lia).
  assert (Hwall : forall d, (0 <= d < m_dim m)%Z -> types 0%Z d <> PERIODIC) by (intros d _; unfold types, un_types; destruct (d <? 2)%Z; discriminate).
  assert (Rch : forall b i Q, located bs1 b i Q -> inside_domain m Q /\ in_reach m types w Q).
  { intros b i Q Hl. apply pair_located in Hl. split.
    - intros d Hd. rewrite Hm2 in Hd. destruct (st_box false false d) as [E1 E2]. unfold m. rewrite E1, E2. unfold X, Y in Hl.
      destruct Hl as (_ & [(_ & ->)|(_ & ->)]); assert (d = 0 \/ d = 1)%Z as [->| ->] by lia; rewrite ?xc0, ?xc1; lra.
    - intros d k Hd Hp. exfalso. exact (Hwall d Hd Hp). }
  assert (Ex : forall D bs, mesh_setup m D -> bodies_ok m D bs -> same_points bs1 bs -> (forall b bc r, nthZ bs b = Some bc -> (0 <= r < nranks D)%Z -> (0 < b_l (fst bc) r)%Z) ->
     exists B log, boundary_after m D types values [OpICs v0] B /\ createDelta m D B K w bs = Ok log).
  { intros D bs Hs Hbo Hsm Hrk. pose proof (pure_after m D types values [OpICs v0] (setup_facts _ _ Hs) Hb) as HB.
    match type of HB with boundary_after _ _ _ _ _ ?b => set (B := b) in HB end.
    destruct (proj2 (delta_defined m D B name K w bs _ _ _ Hs Hbo HK Hb HB)) as (log & El); [|eauto].
    split; [|exact Hrk]. intros b i Q Hl. apply (Rch b i). now apply (IbGridProof.located_same bs1 bs Hsm). }
  destruct (Ex D1 bs1 Hs1 Hbo1 eq_refl) as (B1 & log1 & HB1 & EL1).
  { intros b bc r Eb Hr. exact (pair_ranks false false Y X b bc r Eb Hr). }
  destruct (Ex D2 bs2 Hs2 Hbo2 eq_refl) as (B2 & log2 & HB2 & EL2).
  { intros b bc r Eb Hr. exact (solo_ranks Y X b bc r Eb Hr). }
  assert (Ip : interior (m_n m 1) (4, 3, 0)%Z) by (apply interior_pc; intros d Hd; assert (d = 0 \/ d = 1 \/ d = 2)%Z as [->|[->| ->]] by lia; vm_compute; split; congruence).
  assert (H1 : (0 <= 1 < m_dim m)%Z) by (rewrite Hm2; lia).
  pose proof (proj2 (idx_spec m D1 1 _ (setup_facts _ _ Hs1) H1 Ip)) as Ei1. pose proof (proj2 (idx_spec m D2 1 _ (setup_facts _ _ Hs2) H1 Ip)) as Ei2.
  exists m, D1, D2, types, bs1, bs2, B1, B2, log1, log2, 3%Z, 3%Z, (idx m D1 1 (4, 3, 0)%Z), (idx m D2 1 (4, 3, 0)%Z), 0%Z, 1%Z, 1%Z, 1%Z, (4, 3, 0)%Z.
  assert (R1 : nthZ (body_layout (nranks D1) (m_dim m) (map fst bs1)) 3 = Some (0, 1, 1)%Z) by reflexivity.
  assert (R2 : nthZ (body_layout (nranks D2) (m_dim m) (map fst bs2)) 3 = Some (0, 1, 1)%Z) by reflexivity.
  repeat (split; [first [assumption|reflexivity]|]).
  assert (L1 : located bs1 0 1 X) by (apply pair_located; auto). assert (L2 : located bs2 0 1 X) by (apply solo_located; exact L1).
  set (h1 := fun d : Z => 1). set (h2 := fun d : Z => if (d =? 0)%Z then 3 / 2 else 1).
  assert (Wi : forall k, (0 <= k < 8)%Z -> wid m 0 0 k = (wid m 3 0 k + wid m 3 0 (k + 1)) / 2 /\ wid m 0 1 k = wid m 3 1 k).
  { intros k Hk. assert (N3 : forall d, (0 <= d < 2)%Z -> m_n m 3 d = 9%Z) by (intros; now apply st_n).
    rewrite (vel_wid m D1 Hs1 0 0 k) by (rewrite ?Hm2, ?N3; lia). rewrite (vel_wid m D1 Hs1 0 1 k) by (rewrite ?Hm2, ?N3; lia). rewrite N3 by lia. cbn [Z.eqb].
    destruct (Z.eqb_spec k (9 - 1)); [lia|]. split; reflexivity. }
  assert (F1 : first_widths m bs1 0 1 h1).
  { exists (default_body 2 2, [Y; X]), X. split; [reflexivity|]. split; [reflexivity|]. intros d Hd. rewrite Hm2 in Hd. exists 4%Z. split.
    - apply st_cell; [exact Hd|]. unfold X. assert (d = 0 \/ d = 1)%Z as [->| ->] by lia; rewrite ?xc0, ?xc1; lra.
    - destruct (Wi 4%Z ltac:(lia)) as [Wa Wb]. unfold m in *. rewrite !st_wid in Wa by lia. rewrite st_wid in Wb by lia. cbn in Wa, Wb. unfold h1.
      assert (d = 0 \/ d = 1)%Z as [->| ->] by lia; [rewrite Wa|rewrite Wb]; lra. }
  assert (F2 : first_widths m bs2 0 0 h2).
  { exists (default_body 1 2, [Y; X]), Y. split; [reflexivity|]. split; [reflexivity|]. intros d Hd. rewrite Hm2 in Hd.
    assert (d = 0 \/ d = 1)%Z as [->| ->] by lia.
    - exists 0%Z. split; [apply st_cell0; [lia|unfold Y; rewrite xc0; lra]|]. destruct (Wi 0%Z ltac:(lia)) as [Wa _]. unfold m in *. rewrite !st_wid in Wa by lia. cbn in Wa. rewrite Wa. unfold h2. cbn. lra.
    - exists 4%Z. split; [apply st_cell; [lia|unfold Y; rewrite xc1; lra]|]. destruct (Wi 4%Z ltac:(lia)) as [_ Wb]. unfold m in *. rewrite st_wid in Wb by lia. cbn in Wb. rewrite Wb. reflexivity. }
  assert (Win : windowed m w X (4, 3, 0)%Z).
  { intros d k Hd Hk. rewrite Hm2 in Hd. assert (k = 4)%Z as ->.
    { apply (cell_unique m D1 Hs1 d (xc X d)); [rewrite Hm2; exact Hd|exact Hk|]. apply st_cell; [exact Hd|]. unfold X. assert (d = 0 \/ d = 1)%Z as [->| ->] by lia; rewrite ?xc0, ?xc1; lra. }
    assert (d = 0 \/ d = 1)%Z as [->| ->] by lia; cbn; lia. }
  assert (K1 : kept_by bs1 0 1 1) by (exists (default_body 2 2, [Y; X]); split; [reflexivity|vm_compute; split; congruence]).
  assert (K2 : kept_by bs2 0 1 0) by (exists (default_body 1 2, [Y; X]); split; [reflexivity|vm_compute; split; congruence]).
  rewrite (proj1 (delta_entries_on_any_mesh m D1 B1 name K w bs1 log1 types values _ 3 0 1 1 X _ 1 (4, 3, 0)%Z 1 h1 Hs1 Hbo1 HK Hb HB1 Hwall EL1 R1 L1 ltac:(vm_compute; split; congruence) K1 F1 Ei1) (conj eq_refl Win)).
  rewrite (proj1 (delta_entries_on_any_mesh m D2 B2 name K w bs2 log2 types values _ 3 0 1 1 X _ 1 (4, 3, 0)%Z 0 h2 Hs2 Hbo2 HK Hb HB2 Hwall EL2 R2 L2 ltac:(vm_compute; split; congruence) K2 F2 Ei2) (conj eq_refl Win)).
  assert (C0 : crd m 1 0 4 = 11 / 2).
  { rewrite (vel_crd m D1 Hs1 1 0 4) by (rewrite ?Hm2; try lia; vm_compute; split; congruence). cbn [Z.eqb]. unfold m. rewrite !st_vert by lia. cbn. lra. }
  assert (C1 : crd m 1 1 3 = 5).
  { rewrite (vel_crd m D1 Hs1 1 1 3) by (rewrite ?Hm2; try lia; vm_compute; split; congruence). cbn [Z.eqb Pos.eqb]. unfold m. rewrite !st_vert by lia. cbn. lra. }
  unfold kernel_at. rewrite Hm2. cbn [Z.eqb Pos.eqb]. change (pc (4, 3, 0)%Z 0) with 4%Z. change (pc (4, 3, 0)%Z 1) with 3%Z. rewrite C0, C1. unfold X. rewrite xc0, xc1. unfold h1, h2. cbn [Z.eqb].
  replace (11 / 2 - 11 / 2) with 0 by lra. replace (5 - 5) with 0 by lra.
  assert (V : exists q, 0 < q /\ forall hh, 0 < hh -> kval K 0 hh = q / hh).
  { destruct (getKernel_cases _ _ _ HK) as [(_ & -> & _)|(_ & -> & _)].
    - exists (2 / 3). split; [lra|]. intros hh Hh. unfold kval. rewrite roma_ok by exact Hh. cbn [ok_or]. rewrite Rabs_R0. replace (0 / hh) with 0 by (field; lra). rewrite roma1_in by lra. replace (1 - 3 * 0 * 0) with 1 by ring. rewrite sqrt_1. field. lra.
    - exists (1 / 2). split; [lra|]. intros hh Hh. unfold kval. rewrite peskin_ok by exact Hh. cbn [ok_or]. rewrite Rabs_R0. replace (0 / hh) with 0 by (field; lra). rewrite peskin1_in by lra. replace (1 + 4 * 0 - 4 * 0 * 0) with 1 by ring. rewrite sqrt_1. field. lra. }
  destruct V as (q & Hq & V). rewrite !V by lra. replace (q / 1) with q by field. intros E.
  assert (q * q = 2 / 3 * (q * q)) by (rewrite E at 1; field). nra.
Qed.
Print Assumptions delta_entries_independent_of_grid_refuted.
