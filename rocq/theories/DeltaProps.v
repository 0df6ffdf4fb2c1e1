(** Properties C27, C28, C29, C30. *)
From Coq Require Import String ZifyBool.
From Verif Require Import Prelude ZSum RSum TypesModel GridModel GridSpec GridProof MeshProof IndexModel IndexSpec IndexProof
  BoundaryModel BoundarySpec BoundaryProof OperatorModel OperatorSpec OperatorProof BStateProof MatModel ConvSpec AdjProof
  BodyModel BodySpec BodyProof BodyUse BodyProps DeltaModel DeltaSpec DeltaKernel DeltaProof DeltaOp DeltaSum DeltaDef ExampleSetup.
Local Open Scope R_scope.

(** C27. For every offset the kernel has a value (no square root of a negative
    number, no division by zero); it is even, and positive exactly inside the
    support. *)
Theorem kernel_values : forall name K w r h, getKernel name = Ok (K, w) -> 0 < h ->
  exists v, K r h = Ok v /\ K (- r) h = Ok v /\ 0 <= v /\ (v = 0 <-> radius name * h <= Rabs r).
Proof.
  intros name K w r h HK Hh. destruct (kernel_defined name K w r h HK Hh) as [E P]. exists (kval K r h). split; [exact E|].
  rewrite (kernel_even name K w r h HK). split; [exact E|]. split; [exact P|]. split.
  - intros Z0. destruct (Rle_dec (radius name * h) (Rabs r)); [assumption|]. pose proof (kernel_in name K w r h HK Hh ltac:(lra)). lra.
  - now apply (kernel_out name K w).
Qed.
Print Assumptions kernel_values.

(** C27. The discrete moments, for every position x and spacing h, over any
    range of points that holds all those inside the support. *)
Theorem kernel_moments : forall name K w x h lo hi, getKernel name = Ok (K, w) -> 0 < h -> covers (radius name) h x lo hi ->
  zsum (fun k => kval K (x - IZR k * h) h) lo hi = 1 / h /\
  zsum (fun k => (x - IZR k * h) * kval K (x - IZR k * h) h) lo hi = 0.
Proof. intros name K w x h lo hi HK Hh C. split; [exact (kernel_zeroth _ _ _ _ _ _ _ HK Hh C)|exact (kernel_first _ _ _ _ _ _ _ HK Hh C)]. Qed.
Print Assumptions kernel_moments.

(** C27. The 4-point kernel: the points of either parity weigh the same. *)
Theorem kernel_even_odd : forall x h lo hi (even : bool), 0 < h -> covers 2 h x lo hi ->
  zsum (fun k => if Bool.eqb (Z.even k) even then kval Peskin_2002 (x - IZR k * h) h else 0) lo hi = 1 / (2 * h).
Proof. exact peskin_parity. Qed.
Print Assumptions kernel_even_odd.

Theorem kernel_names : forall name,
  (name = "ROMA_ET_AL_1999"%string -> getKernel name = Ok (Roma_et_al_1999, 2%Z)) /\
  (name = "PESKIN_2002"%string -> getKernel name = Ok (Peskin_2002, 3%Z)) /\
  (name <> "ROMA_ET_AL_1999"%string -> name <> "PESKIN_2002"%string -> getKernel name = Err PETSC_ERR_ARG_UNKNOWN_TYPE).
Proof.
  intros name. split; [intros ->; reflexivity|]. split; [intros ->; reflexivity|]. intros H1 H2. unfold getKernel.
  destruct (String.eqb_spec name "ROMA_ET_AL_1999"); [contradiction|]. destruct (String.eqb_spec name "PESKIN_2002"); [contradiction|]. reflexivity.
Qed.
Print Assumptions kernel_names.

(** Any position is covered by some range. *)
Example covers_case : forall name K w x h, getKernel name = Ok (K, w) -> 0 < h -> exists lo hi, covers (radius name) h x lo hi.
Proof.
  intros name K w x h HK Hh. assert (radius name <= 2) by (destruct (getKernel_cases _ _ _ HK) as [(_ & _ & _ & ->)|(_ & _ & _ & ->)]; lra).
  exists (up (x / h) - 3)%Z, (up (x / h) + 3)%Z. intros k Hk. destruct (archimed (x / h)) as [A1 A2].
  assert (Ex : x = x / h * h) by (field; lra). set (q := x / h) in *. rewrite Ex. replace (q * h - IZR k * h) with ((q - IZR k) * h) by ring.
  rewrite Rabs_mult, (Rabs_right h) by lra. apply Rmult_le_compat_r; [lra|].
  apply Rle_trans with 2; [lra|]. destruct (IZR_out k _ _ Hk) as [G|G]; rewrite ?minus_IZR, ?plus_IZR in G;
    [rewrite Rabs_right; lra|rewrite Rabs_left1; lra].
Qed.
Example roma_at_zero : Roma_et_al_1999 0 1 = Ok (2 / 3).
Proof. rewrite roma_ok by lra. f_equal. rewrite Rabs_R0. replace (0 / 1) with 0 by field. rewrite roma1_in by lra. replace (1 - 3 * 0 * 0) with (1 * 1) by ring. rewrite sqrt_square by lra. field. Qed.

(** C28. The window searched along a direction holds every point of the
    component that is inside the support, for every position with a host cell
    whose neighbours have the same width. *)
Theorem window_holds_support : forall m D name K w f d x hd k per l s,
  mesh_setup m D -> getKernel name = Ok (K, w) -> (0 <= f < m_dim m)%Z -> (0 <= d < m_dim m)%Z ->
  host_index m d x = Ok k -> 0 < hd -> (forall j, (0 <= j < m_n m 3 d)%Z -> near_cell m d w k j -> wid m 3 d j = hd) ->
  neighbours m f d k per w = Ok l ->
  (0 <= s < m_n m f d)%Z -> Rabs (x - crd m f d s) < radius name * hd -> In (s, crd m f d s) l.
Proof.
  intros m D name K w f d x hd k per l s Hs HK Hf Hd Hk Ph HU El Hr Hx.
  apply (proj2 (neighbours_In m D f d k per w l Hs Hf Hd El)); [|exact Hr].
  exact (window_covers m D Hs name K w HK d k x hd Hd (proj1 (host_cell m D Hs d x k Hd Hk)) Ph HU f s Hf Hr Hx).
Qed.
Print Assumptions window_holds_support.

(** C28. Every entry of the operator: the product of the kernel at the
    distances from the Lagrangian point to the grid point of the same component
    (no grid point of the support is missed, none is counted twice), and 0
    between different components. *)
Theorem delta_entries : forall m D h B name K w bodies log types values hist row b i c X id f p,
  mesh_setup m D -> uniform_around m h w bodies -> bodies_ok m D bodies -> getKernel name = Ok (K, w) ->
  bc_fits m types -> boundary_after m D types values hist B -> wide_enough m w ->
  createDelta m D B K w bodies = Ok log ->
  nthZ (body_layout (nranks D) (m_dim m) (map fst bodies)) row = Some (b, i, c) -> located bodies b i X ->
  nthZ (packed_layout (m_dim m) D) id = Some (f, p) ->
  entry log row id = if (f =? c)%Z then kernel_at m K h c X p else 0.
Proof.
  intros m D h B name K w bodies log types values hist row b i c X id f p Hs Hu Hbo HK Hb HB Hw HL Hrow Hl Hid.
  exact (entry_kernel m D Hs bodies Hbo B name K w HK log HL types values hist Hb HB h Hu Hw row b i c X id f p Hrow Hl Hid).
Qed.
Print Assumptions delta_entries.

(** C28/C30. When the operator can be built: exactly when every point is
    strictly inside the domain, every rank owns a point of every body, and no
    window leaves the stored coordinates in the directions flagged periodic. *)
Theorem delta_defined : forall m D B name K w bodies types values hist,
  mesh_setup m D -> bodies_ok m D bodies -> getKernel name = Ok (K, w) ->
  bc_fits m types -> boundary_after m D types values hist B ->
  ((exists log, createDelta m D B K w bodies = Ok log) <->
   (forall b i X, located bodies b i X -> inside_domain m X /\ in_reach m types w X) /\
   (forall b bc r, nthZ bodies b = Some bc -> (0 <= r < nranks D)%Z -> (0 < b_l (fst bc) r)%Z)).
Proof.
  intros m D B name K w bodies types values hist Hs Hbo HK Hb HB. split.
  - intros (log & E). exact (defined_needs m D Hs bodies Hbo B name K w HK types values hist Hb HB log E).
  - intros [H1 H2]. exact (defined_when m D Hs bodies Hbo B name K w HK types values hist Hb HB H1 H2).
Qed.
Print Assumptions delta_defined.

(** C29. The interpolation operator of the solvers is exact on every velocity
    whose components are constant plus linear in the position, at every point
    at least a kernel radius away from the boundary. *)
Theorem interpolation_exact : forall m D h B name bodies types values hist E H row b i c X a g x K w,
  mesh_setup m D -> uniform_around m h w bodies -> bodies_ok m D bodies -> getKernel name = Ok (K, w) ->
  bc_fits m types -> boundary_after m D types values hist B -> wide_enough m w ->
  ib_operators m D B name bodies = Ok (E, H) ->
  nthZ (body_layout (nranks D) (m_dim m) (map fst bodies)) row = Some (b, i, c) -> located bodies b i X ->
  clear m h (radius name) X -> holds_affine m D a g x ->
  mvec (n_velocity m) E x row = affine m a g c (xc X).
Proof.
  intros m D h B name bodies types values hist E H row b i c X a g x K w Hs Hu Hbo HK Hb HB Hw HE Hrow Hl Hx Ha.
  exact (ib_interpolates m D h Hs name K w HK bodies Hu B types values hist Hb HB Hw Hbo E H HE row b i c X a g x Hrow Hl Hx Ha).
Qed.
Print Assumptions interpolation_exact.

(** C29. Spreading: the operator applied to the forces is the transpose of the
    interpolation up to the volume of a cell, so the spread force field does
    against every such velocity the same work as the forces at the points; with
    a constant velocity: the total force is preserved, with a rotation: the
    total moment. *)
Theorem spreading_preserves : forall m D h B name bodies types values hist E H K w nb (force vel : vec) a g x,
  mesh_setup m D -> uniform_around m h w bodies -> bodies_ok m D bodies -> getKernel name = Ok (K, w) ->
  bc_fits m types -> boundary_after m D types values hist B -> wide_enough m w ->
  ib_operators m D B name bodies = Ok (E, H) ->
  nb = lenZ (body_layout (nranks D) (m_dim m) (map fst bodies)) ->
  holds_affine m D a g x ->
  (forall row b i c X, nthZ (body_layout (nranks D) (m_dim m) (map fst bodies)) row = Some (b, i, c) -> located bodies b i X ->
     clear m h (radius name) X /\ vel row = affine m a g c (xc X)) ->
  (forall id row, (0 <= id < n_velocity m)%Z -> (0 <= row < nb)%Z -> E row id = cell_volume m h * H id row) /\
  zsum (fun id => cell_volume m h * mvec nb H force id * x id) 0 (n_velocity m) = zsum (fun row => force row * vel row) 0 nb.
Proof.
  intros m D h B name bodies types values hist E H K w nb force vel a g x Hs Hu Hbo HK Hb HB Hw HE Hnb Ha Hv. split.
  - intros id row Hid Hrow. subst nb. destruct (velocity_ids m D id (setup_facts _ _ Hs) Hid) as (f & p & Ei).
    destruct (nthZ_in_range _ row Hrow) as ([[b i] c] & Er). destruct (bodies_pos m D bodies Hbo row b i c Er) as (X & Hl).
    destruct (ib_entries m D h Hs name K w HK bodies Hu B types values hist Hb HB Hw Hbo E H HE row b i c X id f p Er Hl Ei) as [_ ->]. ring.
  - exact (ib_power m D h Hs name K w HK bodies Hu B types values hist Hb HB Hw Hbo E H HE nb force vel a g x Hnb Ha Hv).
Qed.
Print Assumptions spreading_preserves.

(** * A uniform 8 x 8 mesh on two ranks *)
Definition un_mx (d : Z) : R := 8.
Definition un_w (d : Z) : list R := [1; 1; 1; 1; 1; 1; 1; 1].
Definition un_mesh (px py : bool) : mesh := ok_or no_mesh (createMeshArrays 2 ex_mn un_mx (ex_per px py) un_w).
Definition un_dec (px py : bool) : dec := default_dec ex_np (m_n (un_mesh px py)).
Definition unit_h (d : Z) : R := 1.
Definition un_types (px py : bool) (f loc : Z) : bctype :=
  if (loc <? 2)%Z then (if px then PERIODIC else DIRICHLET) else (if py then PERIODIC else DIRICHLET).

Lemma un_dim px py : m_dim (un_mesh px py) = 2%Z.
Proof. destruct px, py; reflexivity. Qed.
Lemma un_create px py : createMeshArrays 2 ex_mn un_mx (ex_per px py) un_w = Ok (un_mesh px py).
Proof. destruct px, py; reflexivity. Qed.
Lemma un_grid : grid_ok 2 ex_mn un_mx un_w.
Proof.
  split; [left; reflexivity|]. intros d Hd. unfold un_w, un_mx, ex_mn, positive, total.
  split; [discriminate|split; [repeat constructor; lra|simpl; lra]].
Qed.
Lemma un_setup px py : mesh_setup (un_mesh px py) (un_dec px py).
Proof.
  exists ex_mn, un_mx, (ex_per px py), un_w, ex_np.
  rewrite !un_dim. split; [exact un_grid|]. split; [apply un_create|]. split; [reflexivity|].
  split; [intros d Hd; unfold ex_np; destruct (d =? 0)%Z; lia|]. split; [reflexivity|].
  destruct px, py; reflexivity.
Qed.
Lemma un_fits px py : bc_fits (un_mesh px py) (un_types px py).
Proof.
  intros f loc Hf Hl. rewrite un_dim in Hl.
  assert (loc = 0 \/ loc = 1 \/ loc = 2 \/ loc = 3)%Z as [->|[->|[->| ->]]] by lia;
    destruct px, py; (split; [discriminate|split; [discriminate || reflexivity|discriminate || reflexivity]]).
Qed.
Lemma un_box px py d : m_min (un_mesh px py) d = 0 /\ m_max (un_mesh px py) d = 8.
Proof. destruct (createMesh_misc _ _ _ _ _ _ (un_create px py)) as (_ & -> & -> & _). split; reflexivity. Qed.
Lemma un_n px py : map (fun fd => m_n (un_mesh px py) (fst fd) (snd fd)) [(0, 0); (0, 1); (1, 0); (1, 1); (3, 0); (3, 1)]%Z =
  [if px then 8 else 7; 8; 8; if py then 8 else 7; 8; 8]%Z.
Proof. destruct px, py; reflexivity. Qed.
Lemma un_uniform px py : uniform (un_mesh px py) unit_h.
Proof.
  intros d Hd. rewrite un_dim in Hd. destruct (un_box px py d) as [-> ->].
  destruct (mesh_pressure _ _ _ _ _ _ (un_create px py) d Hd) as (En & Hw & _). rewrite En. unfold un_w in *. change (lenZ [1; 1; 1; 1; 1; 1; 1; 1]) with 8%Z in *.
  unfold unit_h. split; [lra|]. intros i Hi. unfold wid. rewrite (proj2 (Hw i Hi)). cbn [ok_or]. rewrite vtx_S by (change (lenZ [1; 1; 1; 1; 1; 1; 1; 1]) with 8%Z; lia).
  assert (wd [1; 1; 1; 1; 1; 1; 1; 1] i = 1). 2: lra.
  assert (i = 0 \/ i = 1 \/ i = 2 \/ i = 3 \/ i = 4 \/ i = 5 \/ i = 6 \/ i = 7)%Z as Hc by lia.
  repeat destruct Hc as [->|Hc]; try reflexivity. subst i. reflexivity.
Qed.
Lemma un_wide px py w : (w <= 3)%Z -> wide_enough (un_mesh px py) w.
Proof.
  intros Hw _ f d Hf Hd. rewrite un_dim in Hf, Hd. 
  assert (f = 0 \/ f = 1)%Z as [->| ->] by lia; assert (d = 0 \/ d = 1)%Z as [->| ->] by lia; destruct px, py;
    match goal with |- (_ <= ?n)%Z => let v := eval vm_compute in n in change n with v end; lia.
Qed.

Lemma xc0 x y : xc [x; y] 0 = x. Proof. reflexivity. Qed.
Lemma xc1 x y : xc [x; y] 1 = y. Proof. reflexivity. Qed.

(** A body of two points, one on each rank. *)
Definition pair (X Y : list R) : list (body * list (list R)) := [(default_body 2 2, [X; Y])].
Lemma pair_ok px py X Y : lenZ X = 2%Z -> lenZ Y = 2%Z -> bodies_ok (un_mesh px py) (un_dec px py) (pair X Y).
Proof.
  intros HX HY. unfold bodies_ok. rewrite un_dim. replace (nranks (un_dec px py)) with 2%Z by (destruct px, py; reflexivity). split.
  - split; [lia|]. split; [lia|]. repeat constructor; try apply default_distribution; lia.
  - repeat constructor; auto.
Qed.
Lemma pair_rows px py X Y : body_layout (nranks (un_dec px py)) (m_dim (un_mesh px py)) (map fst (pair X Y)) =
  [(0, 0, 0); (0, 0, 1); (0, 1, 0); (0, 1, 1)]%Z.
Proof. destruct px, py; reflexivity. Qed.
Lemma pair_located X Y b i P : located (pair X Y) b i P <-> b = 0%Z /\ ((i = 0%Z /\ P = X) \/ (i = 1%Z /\ P = Y)).
Proof.
  split.
  - intros (bc & Eb & EP). pose proof (nthZ_Some_range _ _ _ Eb) as Hr. change (lenZ (pair X Y)) with 1%Z in Hr. assert (b = 0%Z) as -> by lia.
    injection Eb as <-. cbn [snd] in EP. pose proof (nthZ_Some_range _ _ _ EP) as Hi. change (lenZ [X; Y]) with 2%Z in Hi.
    split; [reflexivity|]. assert (i = 0 \/ i = 1)%Z as [->| ->] by lia; injection EP as <-; auto.
  - intros (-> & [(-> & ->)|(-> & ->)]); eexists; split; reflexivity.
Qed.
Lemma pair_ranks px py X Y b bc r : nthZ (pair X Y) b = Some bc -> (0 <= r < nranks (un_dec px py))%Z -> (0 < b_l (fst bc) r)%Z.
Proof.
  intros Eb Hr. pose proof (nthZ_Some_range _ _ _ Eb) as Hb. change (lenZ (pair X Y)) with 1%Z in Hb. assert (b = 0%Z) as -> by lia. injection Eb as <-.
  replace (nranks (un_dec px py)) with 2%Z in Hr by (destruct px, py; reflexivity). assert (r = 0 \/ r = 1)%Z as [->| ->] by lia; reflexivity.
Qed.
Lemma un_reach px py w x y : (w <= 3)%Z -> 3 <= x < 5 -> 3 <= y < 5 -> inside_domain (un_mesh px py) [x; y] /\ in_reach (un_mesh px py) (un_types px py) w [x; y].
Proof.
  intros Hw Hx Hy. split.
  - intros d Hd. rewrite un_dim in Hd. destruct (un_box px py d) as [-> ->]. assert (d = 0 \/ d = 1)%Z as [->| ->] by lia; rewrite ?xc0, ?xc1; lra.
  - intros d k Hd _ Hk. apply (uni_cell _ _ _ _ _ _ (un_setup px py) (un_uniform px py) Hd) in Hk. rewrite un_dim in Hd. rewrite (proj1 (un_box px py d)) in Hk. unfold unit_h in Hk.
    assert (Hk3 : 3 <= xc [x; y] d < 5) by (assert (d = 0 \/ d = 1)%Z as [->| ->] by lia; rewrite ?xc0, ?xc1; lra).
    assert (2 < IZR (k + 1)) by lra. assert (IZR k < 5) by lra. assert (HH : (2 < k + 1)%Z) by (apply lt_IZR; lra). assert (HH2 : (k < 5)%Z) by (apply lt_IZR; lra).
    split; [lia|]. intros c Hc. rewrite un_dim in Hc.
    assert (c = 0 \/ c = 1)%Z as [->| ->] by lia; assert (d = 0 \/ d = 1)%Z as [->| ->] by lia; destruct px, py;
      match goal with |- (_ <= ?n)%Z => let v := eval vm_compute in n in change n with v end; lia.
Qed.

(** Two points in the middle: the operators exist, whatever the boundary
    conditions and the kernel, and the points are clear of the boundary. *)
Example delta_case : forall px py name values x v0 dt K w, getKernel name = Ok (K, w) ->
  let m := un_mesh px py in let D := un_dec px py in let bodies := pair [4; 4] [13 / 4; 9 / 2] in
  mesh_setup m D /\ uniform m unit_h /\ bodies_ok m D bodies /\ bc_fits m (un_types px py) /\ wide_enough m w /\
  (forall b i X, located bodies b i X -> clear m unit_h (radius name) X) /\
  exists B E H, boundary_after m D (un_types px py) values [OpICs v0; OpEqs v0 dt; OpVals x] B /\ ib_operators m D B name bodies = Ok (E, H).
Proof.
  intros px py name values x v0 dt K w HK m D bodies.
  pose proof (un_setup px py) as Hs. pose proof (un_fits px py) as Hb. pose proof (pair_ok px py [4; 4] [13 / 4; 9 / 2] eq_refl eq_refl) as Hbo.
  assert (W : (w <= 3)%Z) by (destruct (getKernel_cases _ _ _ HK) as [(_ & _ & -> & _)|(_ & _ & -> & _)]; lia).
  split; [exact Hs|]. split; [apply un_uniform|]. split; [exact Hbo|]. split; [exact Hb|]. split; [now apply un_wide|]. split.
  - intros b i X Hl. apply pair_located in Hl. assert (radius name <= 2) by (destruct (getKernel_cases _ _ _ HK) as [(_ & _ & _ & ->)|(_ & _ & _ & ->)]; lra).
    intros d Hd. unfold m in *. rewrite un_dim in Hd. destruct (un_box px py d) as [-> ->]. unfold unit_h.
    destruct Hl as (_ & [(_ & ->)|(_ & ->)]); assert (d = 0 \/ d = 1)%Z as [->| ->] by lia; rewrite ?xc0, ?xc1; lra.
  - pose proof (pure_after m D (un_types px py) values [OpICs v0; OpEqs v0 dt; OpVals x] (setup_facts _ _ Hs) Hb) as HB.
    match type of HB with boundary_after _ _ _ _ _ ?b => set (B := b) in HB end.
    destruct (proj2 (delta_defined m D B name K w bodies _ _ _ Hs Hbo HK Hb HB)) as (log & El).
    + split; [|apply pair_ranks]. intros b i X Hl. apply pair_located in Hl. destruct Hl as (_ & [(_ & ->)|(_ & ->)]); apply un_reach; auto; lra.
    + exists B. unfold ib_operators. destruct (AlgebraProps.diagonal_operators m D Hs) as (Rm & Ri & Mm & Mq & Id & ER & _ & EM & _).
      rewrite ER, EM, HK. cbn [bind fst snd]. rewrite El. cbn [bind]. eauto.
Qed.

(** C30. Across a periodic boundary. The entries only see the direct distance:
    a grid point out of reach of the Lagrangian point has entry 0, even when
    one of its periodic images is inside the support. *)
Theorem images_ignored : forall m D h B name K w bodies log types values hist row b i c X id p d,
  mesh_setup m D -> uniform_around m h w bodies -> bodies_ok m D bodies -> getKernel name = Ok (K, w) ->
  bc_fits m types -> boundary_after m D types values hist B -> wide_enough m w ->
  createDelta m D B K w bodies = Ok log ->
  nthZ (body_layout (nranks D) (m_dim m) (map fst bodies)) row = Some (b, i, c) -> located bodies b i X ->
  nthZ (packed_layout (m_dim m) D) id = Some (c, p) ->
  (0 <= d < m_dim m)%Z -> radius name * h d <= Rabs (xc X d - crd m c d (pc p d)) ->
  entry log row id = 0.
Proof.
  intros m D h B name K w bodies log types values hist row b i c X id p d Hs Hu Hbo HK Hb HB Hw HL Hrow Hl Hid Hd Hx.
  rewrite (delta_entries m D h B name K w bodies log types values hist row b i c X id c p Hs Hu Hbo HK Hb HB Hw HL Hrow Hl Hid).
  rewrite Z.eqb_refl. assert (Z0 : kval K (xc X d - crd m c d (pc p d)) (h d) = 0) by (apply (kernel_out name K w); auto; now apply Hu).
  pose proof (mf_dim _ _ (setup_facts _ _ Hs)) as Hdim. unfold kernel_at. destruct (Z.eqb_spec (m_dim m) 3).
  - assert (d = 0 \/ d = 1 \/ d = 2)%Z as [->|[->| ->]] by lia; rewrite Z0; ring.
  - assert (d = 0 \/ d = 1)%Z as [->| ->] by lia; rewrite Z0; ring.
Qed.
Print Assumptions images_ignored.

(** The claim that a point near a periodic boundary interacts with the periodic
    images at their true distance is false: on the 8 x 8 mesh, periodic in both
    directions, the point (5/4, 4) is 5/4 of a cell from the image at x = 0 of
    the last x-velocity point, inside the support; the entry is 0, and the row
    sum of the interpolation operator is less than 1. *)
Lemma near_x px py : inside_domain (un_mesh px py) [5 / 4; 4] /\ in_reach (un_mesh px py) (un_types px py) 2 [5 / 4; 4].
Proof.
  split.
  - intros d Hd. rewrite un_dim in Hd. destruct (un_box px py d) as [-> ->]. assert (d = 0 \/ d = 1)%Z as [->| ->] by lia; rewrite ?xc0, ?xc1; lra.
  - intros d k Hd _ Hk. apply (uni_cell _ _ _ _ _ _ (un_setup px py) (un_uniform px py) Hd) in Hk. rewrite un_dim in Hd. rewrite (proj1 (un_box px py d)) in Hk. unfold unit_h in Hk.
    assert (Hk3 : 1 < xc [5 / 4; 4] d < 5) by (assert (d = 0 \/ d = 1)%Z as [->| ->] by lia; rewrite ?xc0, ?xc1; lra).
    assert (HH : (1 < k + 1)%Z) by (apply lt_IZR; lra). assert (HH2 : (k < 5)%Z) by (apply lt_IZR; lra).
    split; [lia|]. intros c Hc. rewrite un_dim in Hc.
    assert (c = 0 \/ c = 1)%Z as [->| ->] by lia; assert (d = 0 \/ d = 1)%Z as [->| ->] by lia; destruct px, py;
      match goal with |- (_ <= ?n)%Z => let v := eval vm_compute in n in change n with v end; lia.
Qed.
Lemma un_crd px py f d i : (0 <= f < 2)%Z -> (0 <= d < 2)%Z -> (-1 <= i <= m_n (un_mesh px py) f d)%Z -> crd (un_mesh px py) f d i = upos f d i.
Proof.
  intros Hf Hd Hi. rewrite (uni_crd _ _ _ (un_setup px py) (un_uniform px py)) by (rewrite ?un_dim; auto). rewrite (proj1 (un_box px py d)). unfold unit_h. lra.
Qed.

Theorem periodic_images_refuted : exists m D B bodies log E H row c X id p,
  mesh_setup m D /\ uniform m unit_h /\ bodies_ok m D bodies /\ bc_fits m (un_types true true) /\
  boundary_after m D (un_types true true) (fun _ _ => 0) [OpICs (fun _ => 0)] B /\ wide_enough m 2 /\
  periodic_dir m 0 = true /\ periodic_dir m 1 = true /\
  createDelta m D B Roma_et_al_1999 2 bodies = Ok log /\ ib_operators m D B "ROMA_ET_AL_1999" bodies = Ok (E, H) /\
  nthZ (body_layout (nranks D) (m_dim m) (map fst bodies)) row = Some (0, 0, c)%Z /\ located bodies 0 0 X /\
  nthZ (packed_layout (m_dim m) D) id = Some (c, p) /\
  0 < kval Roma_et_al_1999 (xc X 0 - (crd m c 0 (pc p 0) - (m_max m 0 - m_min m 0))) 1 * kval Roma_et_al_1999 (xc X 1 - crd m c 1 (pc p 1)) 1 /\
  entry log row id = 0 /\ mvec (n_velocity m) E (fun _ => 1) row < 1.
Proof.
  set (m := un_mesh true true). set (D := un_dec true true). set (bodies := pair [5 / 4; 4] [4; 4]).
  pose proof (un_setup true true) as Hs. pose proof (un_fits true true) as Hb. pose proof (un_uniform true true) as Hu.
  pose proof (pair_ok true true [5 / 4; 4] [4; 4] eq_refl eq_refl) as Hbo. pose proof (un_wide true true 2 ltac:(lia)) as Hw.
  fold m in Hs, Hb, Hu, Hbo, Hw. fold D in Hs, Hbo. fold bodies in Hbo.
  pose proof (pure_after m D (un_types true true) (fun _ _ => 0) [OpICs (fun _ => 0)] (setup_facts _ _ Hs) Hb) as HB.
  match type of HB with boundary_after _ _ _ _ _ ?b => set (B := b) in HB end. clearbody B.
  set (name := "ROMA_ET_AL_1999"%string). assert (HK : getKernel name = Ok (Roma_et_al_1999, 2%Z)) by reflexivity.
  destruct (proj2 (delta_defined m D B name _ _ bodies _ _ _ Hs Hbo HK Hb HB)) as (log & El).
  { split; [|apply pair_ranks]. intros b i X Hl. apply pair_located in Hl. destruct Hl as (_ & [(_ & ->)|(_ & ->)]); [apply near_x|apply un_reach; auto; try lra; lia]. }
  assert (IB : exists E H, ib_operators m D B name bodies = Ok (E, H)).
  { unfold ib_operators. destruct (AlgebraProps.diagonal_operators m D Hs) as (Rm & Ri & Mm & Mq & Id & ER & _ & EM & _).
    rewrite ER, EM, HK. cbn [bind fst snd]. rewrite El. cbn [bind]. eauto. }
  destruct IB as (E & H & IB).
  assert (Hrow : nthZ (body_layout (nranks D) (m_dim m) (map fst bodies)) 0 = Some (0, 0, 0)%Z) by (unfold D, m, bodies; rewrite pair_rows; reflexivity).
  assert (Hl : located bodies 0 0 [5 / 4; 4]) by (apply pair_located; auto).
  assert (Rad : radius name = 3 / 2) by reflexivity.
  pose proof (setup_facts _ _ Hs) as F. assert (Hp : interior (m_n m 0) (7, 3, 0)%Z) by (vm_compute; repeat split; discriminate || reflexivity).
  destruct (idx_spec m D 0 (7, 3, 0)%Z F ltac:(unfold m; rewrite un_dim; lia) Hp) as [_ Hid].
  exists m, D, B, bodies, log, E, H, 0%Z, 0%Z, [5 / 4; 4], (idx m D 0 (7, 3, 0)%Z), (7, 3, 0)%Z.
  split; [exact Hs|]. split; [exact Hu|]. split; [exact Hbo|]. split; [exact Hb|]. split; [exact HB|]. split; [exact Hw|].
  split; [reflexivity|]. split; [reflexivity|]. split; [exact El|]. split; [exact IB|]. split; [exact Hrow|]. split; [exact Hl|]. split; [exact Hid|].
  change (pc (7, 3, 0)%Z 0) with 7%Z. change (pc (7, 3, 0)%Z 1) with 3%Z.
  assert (C0 : forall i, (-1 <= i <= 8)%Z -> crd m 0 0 i = IZR i + 1).
  { intros i Hi. unfold m. rewrite un_crd by (try lia; exact Hi). unfold upos. cbn [Z.eqb]. reflexivity. }
  assert (C1 : forall i, (-1 <= i <= 8)%Z -> crd m 0 1 i = IZR i + 1 / 2).
  { intros i Hi. unfold m. rewrite un_crd by (try lia; exact Hi). unfold upos. cbn [Z.eqb]. reflexivity. }
  assert (Kin : forall r, Rabs r < 3 / 2 -> 0 < kval Roma_et_al_1999 r 1) by (intros r Hr; apply (kernel_in name _ 2 r 1 HK); [lra|rewrite Rad; lra]).
  rewrite xc0, xc1. destruct (un_box true true 0) as [Em0 EM0]. fold m in Em0, EM0. rewrite Em0, EM0, C0, C1 by lia.
  split. { apply Rmult_lt_0_compat; apply Kin; unfold Rabs; destruct (Rcase_abs _); lra. }
  split.
  { apply (images_ignored m D unit_h B name _ _ bodies log _ _ _ 0 0 0 0 [5 / 4; 4] _ (7, 3, 0)%Z 0 Hs (uniform_is_around m D unit_h 2 bodies Hs Hu) Hbo HK Hb HB Hw El Hrow Hl Hid); [unfold m; rewrite un_dim; lia|].
    change (pc (7, 3, 0)%Z 0) with 7%Z. rewrite C0 by lia. rewrite xc0, Rad. unfold unit_h. unfold Rabs; destruct (Rcase_abs _); lra. }
  unfold mvec. set (k0 := fun s => kval Roma_et_al_1999 (5 / 4 - crd m 0 0 s) 1). set (k1 := fun s => kval Roma_et_al_1999 (4 - crd m 0 1 s) 1).
  rewrite (comp_sum m D 0 (fun p => k0 (pc p 0) * k1 (pc p 1) * (fun _ => 1) (pc p 2)) _ F ltac:(unfold m; rewrite un_dim; lia)).
  - unfold points. rewrite (box_prod k0 k1 (fun _ => 1)). change (m_n m 0 0) with 8%Z. change (m_n m 0 1) with 8%Z. change (m_n m 0 2) with 1%Z.
    assert (S1 : zsum k1 0 8 = 1).
    { unfold k1. destruct (un_box true true 1) as [Em EM]. fold m in Em, EM. assert (D1 : (0 <= 1 < m_dim m)%Z) by (unfold m; rewrite un_dim; lia).
      destruct (host_exists m D Hs 1 4 D1 ltac:(lra)) as (kk & Hk).
      pose proof (dir_zeroth m D unit_h Hs name _ _ HK 0 1 kk 4 ltac:(unfold m; rewrite un_dim; lia) D1 (proj1 (host_cell m D Hs 1 4 kk D1 Hk)) ltac:(unfold unit_h; lra)) as Z1.
      rewrite Em, EM, Rad in Z1. unfold unit_h in Z1. change (m_n m 0 1) with 8%Z in Z1. rewrite Z1; [field| |lra]. intros j Hj _. now apply (proj2 (Hu 1%Z D1)). }
    assert (S0 : zsum k0 0 8 < 1).
    { assert (T : zsum k0 (-1) 8 = 1).
      { rewrite (zsum_ext _ (fun k => kval Roma_et_al_1999 (1 / 4 - IZR k * 1) 1)).
        - pose proof (kernel_zeroth name _ _ (1 / 4) 1 (-1) 8 HK ltac:(lra)) as Z1. rewrite Z1; [field|]. intros k Hk. rewrite Rad.
          destruct (IZR_out k _ _ Hk) as [G|G]; unfold Rabs; destruct (Rcase_abs _); lra.
        - intros k Hk. unfold k0. rewrite C0 by lia. f_equal. lra. }
      rewrite zsum_cons in T by lia. change (-1 + 1)%Z with 0%Z in T.
      assert (0 < k0 (-1)%Z) by (apply Kin; rewrite C0 by lia; unfold Rabs; destruct (Rcase_abs _); lra). lra. }
    rewrite S1. unfold zsum at 2. change (zrange 0 1) with [0%Z]. cbn [sumR]. lra.
  - intros id f p Hi. destruct (ib_entries m D unit_h Hs name _ _ HK bodies (uniform_is_around m D unit_h 2 bodies Hs Hu) B _ _ _ Hb HB Hw Hbo E H IB 0 0 0 0 [5 / 4; 4] id f p Hrow Hl Hi) as [E1 E2].
    rewrite E2, E1. unfold cell_volume, kernel_at, k0, k1, unit_h. replace (m_dim m) with 2%Z by (symmetry; apply un_dim). change (2 =? 3)%Z with false. cbv iota. rewrite xc0, xc1.
    destruct (f =? 0)%Z; ring.
Qed.
Print Assumptions periodic_images_refuted.

(** The window may be searched as if y were periodic because x is: with x
    periodic and walls in y, a point in the first row of cells makes the
    code read outside the stored coordinates. *)
Theorem wall_read_as_periodic_refuted : exists m D B bodies,
  mesh_setup m D /\ uniform m unit_h /\ bodies_ok m D bodies /\ bc_fits m (un_types true false) /\
  boundary_after m D (un_types true false) (fun _ _ => 0) [OpICs (fun _ => 0)] B /\
  periodic_dir m 1 = false /\ (forall b i X, located bodies b i X -> inside_domain m X) /\
  (forall b bc r, nthZ bodies b = Some bc -> (0 <= r < nranks D)%Z -> (0 < b_l (fst bc) r)%Z) /\
  forall log, createDelta m D B Roma_et_al_1999 2 bodies <> Ok log.
Proof.
  set (m := un_mesh true false). set (D := un_dec true false). set (bodies := pair [4; 1 / 2] [4; 4]).
  pose proof (un_setup true false) as Hs. pose proof (un_fits true false) as Hb. pose proof (un_uniform true false) as Hu.
  pose proof (pair_ok true false [4; 1 / 2] [4; 4] eq_refl eq_refl) as Hbo. fold m in Hs, Hb, Hu, Hbo. fold D in Hs, Hbo. fold bodies in Hbo.
  pose proof (pure_after m D (un_types true false) (fun _ _ => 0) [OpICs (fun _ => 0)] (setup_facts _ _ Hs) Hb) as HB.
  match type of HB with boundary_after _ _ _ _ _ ?b => set (B := b) in HB end.
  exists m, D, B, bodies. split; [exact Hs|]. split; [exact Hu|]. split; [exact Hbo|]. split; [exact Hb|]. split; [exact HB|]. split; [reflexivity|]. split.
  { intros b i X Hl d Hd. apply pair_located in Hl. unfold m in *. rewrite un_dim in Hd. destruct (un_box true false d) as [-> ->].
    destruct Hl as (_ & [(_ & ->)|(_ & ->)]); assert (d = 0 \/ d = 1)%Z as [->| ->] by lia; rewrite ?xc0, ?xc1; lra. }
  split; [apply pair_ranks|]. intros log El.
  destruct (proj1 (delta_defined m D B "ROMA_ET_AL_1999"%string _ _ bodies _ _ _ Hs Hbo eq_refl Hb HB) (ex_intro _ log El)) as [G _].
  destruct (G 0%Z 0%Z [4; 1 / 2] ltac:(apply pair_located; auto)) as [_ G2].
  destruct (G2 1%Z 0%Z ltac:(unfold m; rewrite un_dim; lia) eq_refl) as [G3 _]; [|lia].
  assert (D1 : (0 <= 1 < m_dim m)%Z) by (unfold m; rewrite un_dim; lia). change (m_n m 3 1) with 8%Z.
  split; [change (m_n m 3 1) with 8%Z; lia|]. rewrite !(uni_vert m D unit_h) by (auto; change (m_n m 3 1) with 8%Z; lia).
  destruct (un_box true false 1) as [Em _]. fold m in Em. rewrite Em. rewrite xc1. unfold unit_h. cbn [Z.add]. lra.
Qed.
Print Assumptions wall_read_as_periodic_refuted.

(** More ranks than points: a rank without points of a body reads meshIdx[0]. *)
Theorem rank_without_points_refuted : exists m D B bodies,
  mesh_setup m D /\ uniform m unit_h /\ bodies_ok m D bodies /\ bc_fits m (un_types false false) /\
  boundary_after m D (un_types false false) (fun _ _ => 0) [OpICs (fun _ => 0)] B /\
  (forall b i X, located bodies b i X -> inside_domain m X /\ in_reach m (un_types false false) 2 X) /\
  forall log, createDelta m D B Roma_et_al_1999 2 bodies <> Ok log.
Proof.
  set (m := un_mesh false false). set (D := un_dec false false). set (bodies := [(default_body 2 1, [[4; 4]])] : list (body * list (list R))).
  pose proof (un_setup false false) as Hs. pose proof (un_fits false false) as Hb. pose proof (un_uniform false false) as Hu.
  assert (Hbo : bodies_ok m D bodies).
  { unfold bodies_ok, m. rewrite un_dim. change (nranks D) with 2%Z. split; [|repeat constructor].
    split; [lia|]. split; [lia|]. repeat constructor; try apply default_distribution; lia. }
  fold m in Hs, Hb, Hu. fold D in Hs.
  pose proof (pure_after m D (un_types false false) (fun _ _ => 0) [OpICs (fun _ => 0)] (setup_facts _ _ Hs) Hb) as HB.
  match type of HB with boundary_after _ _ _ _ _ ?b => set (B := b) in HB end.
  exists m, D, B, bodies. split; [exact Hs|]. split; [exact Hu|]. split; [exact Hbo|]. split; [exact Hb|]. split; [exact HB|]. split.
  { intros b i X (bc & Eb & EX). pose proof (nthZ_Some_range _ _ _ Eb) as Hr. change (lenZ bodies) with 1%Z in Hr. assert (b = 0%Z) as -> by lia.
    injection Eb as <-. cbn [snd] in EX. pose proof (nthZ_Some_range _ _ _ EX) as Hi. change (lenZ [[4; 4]]) with 1%Z in Hi. assert (i = 0%Z) as -> by lia.
    injection EX as <-. apply un_reach; lia || lra. }
  intros log El.
  destruct (proj1 (delta_defined m D B "ROMA_ET_AL_1999"%string _ _ bodies _ _ _ Hs Hbo eq_refl Hb HB) (ex_intro _ log El)) as [_ G].
  pose proof (G 0%Z _ 1%Z eq_refl ltac:(change (nranks D) with 2%Z; lia)) as G1. cbn in G1. discriminate.
Qed.
Print Assumptions rank_without_points_refuted.
