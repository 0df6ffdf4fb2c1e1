(** The forces file and the force on the fluid. *)
From Coq Require Import ZifyBool String Permutation.
From Verif Require Import Prelude ZSum RSum TypesModel GridModel GridSpec GridProof MeshProof
  IndexModel IndexSpec IndexProof BoundaryModel BoundarySpec BoundaryProof OperatorModel OperatorSpec DeltaKernel AdjProof
  MatModel NSModel NSSpec NameModel DriverModel DriverSpec
  BodyModel BodySpec BodyProof BodyUse DeltaModel DeltaSpec DeltaProps IbpmModel IbpmSpec IbpmProof IbOutModel IbOutSpec IbOutLines.
Local Open Scope R_scope.

Definition all_points (dim : Z) (bodies : list (body * list (list R))) : list (Z * Z * Z) :=
  flat_map (fun b => match nthZ bodies b with
                     | Some bc => flat_map (fun i => map (fun c => (b, i, c)) (zrange 0 dim)) (zrange 0 (b_nPts (fst bc)))
                     | None => [] end) (zrange 0 (lenZ bodies)).
Lemma all_points_In dim bodies b i c : In (b, i, c) (all_points dim bodies) <-> exists bc, nthZ bodies b = Some bc /\ (0 <= i < b_nPts (fst bc))%Z /\ (0 <= c < dim)%Z.
Proof.
  unfold all_points. rewrite in_flat_map. split.
  - intros (b' & Hb & H). destruct (nthZ bodies b') as [bc|] eqn:E; [|destruct H]. apply in_flat_map in H. destruct H as (i' & Hi & H).
    apply in_map_iff in H. destruct H as (c' & Ec & Hc). injection Ec as -> -> ->. apply zrange_In in Hi, Hc. eauto.
  - intros (bc & E & Hi & Hc). exists b. split; [apply zrange_In; exact (nthZ_Some_range _ _ _ E)|]. rewrite E. apply in_flat_map. exists i. split; [now apply zrange_In|].
    apply in_map_iff. exists c. split; [reflexivity|now apply zrange_In].
Qed.
Lemma all_points_NoDup dim bodies : NoDup (all_points dim bodies).
Proof.
  assert (T : forall (b : Z) l (x : Z * Z * Z), In x (flat_map (fun i => map (fun c => (b, i, c)) (zrange 0 dim)) l) -> fst (fst x) = b).
  { intros b l x H. apply in_flat_map in H. destruct H as (i & _ & H). apply in_map_iff in H. destruct H as (c & <- & _). reflexivity. }
  apply NoDup_flat_map.
  - apply zrange_NoDup.
  - intros b _. destruct (nthZ bodies b) as [bc|]; [|constructor]. apply NoDup_flat_map; [apply zrange_NoDup| |].
    + intros i _. apply FinFun.Injective_map_NoDup; [|apply zrange_NoDup]. intros c c' E. now injection E.
    + intros i i' x _ _ H H'. apply in_map_iff in H, H'. destruct H as (c & <- & _), H' as (c' & E & _). now injection E.
  - intros b b' x _ _ H H'. destruct (nthZ bodies b); [|destruct H]. destruct (nthZ bodies b'); [|destruct H']. apply T in H, H'. congruence.
Qed.

Lemma sum_rows m D bodies (f : vec) force c : bodies_ok m D bodies -> (0 <= c < m_dim m)%Z ->
  (forall row b i c, nthZ (body_layout (nranks D) (m_dim m) (map fst bodies)) row = Some (b, i, c) -> f row = force b i c) ->
  zsum (fun row => f row * (if match nthZ (body_layout (nranks D) (m_dim m) (map fst bodies)) row with Some (_, _, c') => (c' =? c)%Z | None => false end then 1 else 0)) 0
    (lenZ (body_layout (nranks D) (m_dim m) (map fst bodies))) =
  zsum (fun b => match nthZ bodies b with Some bc => zsum (fun i => force b i c) 0 (b_nPts (fst bc)) | None => 0 end) 0 (lenZ bodies).
Proof.
  intros Hbo Hc Hf. set (Lay := body_layout (nranks D) (m_dim m) (map fst bodies)) in *.
  set (G := fun x : Z * Z * Z => if (snd x =? c)%Z then force (fst (fst x)) (snd (fst x)) c else 0).
  rewrite (sum_layout (fun _ => G) Lay G); auto.
  2: { intros id [[b i] c'] E. rewrite E, (Hf _ _ _ _ E). unfold G. cbn [fst snd]. destruct (Z.eqb_spec c' c) as [->|]; ring. }
  rewrite (sumR_perm G Lay (all_points (m_dim m) bodies)).
  - unfold all_points. rewrite sumR_flat_map. unfold zsum. apply sumR_ext. intros b _. destruct (nthZ bodies b) as [bc|]; [|reflexivity].
    rewrite sumR_flat_map. apply sumR_ext. intros i _. rewrite sumR_map. rewrite (sumR_single _ _ c); [unfold G; cbn [fst snd]; rewrite Z.eqb_refl; reflexivity|apply zrange_NoDup|now apply zrange_In|].
    intros y _ Hy. unfold G. cbn [fst snd]. destruct (Z.eqb_spec y c); [contradiction|reflexivity].
  - apply NoDup_Permutation; [apply body_layout_NoDup; exact (proj1 Hbo)|apply all_points_NoDup|]. intros [[b i] c']. rewrite all_points_In. unfold Lay. rewrite (body_layout_In _ _ _ (proj1 Hbo)).
    rewrite nthZ_map. split.
    + intros (bo & E & X). destruct (nthZ bodies b) as [bc|]; [|discriminate]. injection E as <-. eauto.
    + intros (bc & E & X). rewrite E. cbn [option_map]. eauto.
Qed.


Lemma column_value m bodies t (force : Z -> Z -> Z -> R) b bc c : nthZ bodies b = Some bc -> (0 <= c < m_dim m)%Z ->
  column (t :: flat_map (fun b => match nthZ (bodies : list (body * list (list R))) b with
      | Some bc => map (fun c => - zsum (fun i => force b i c) 0 (b_nPts (fst bc))) (zrange 0 (m_dim m)) | None => [] end) (zrange 0 (lenZ bodies))) (1 + b * m_dim m + c)
  = - zsum (fun i => force b i c) 0 (b_nPts (fst bc)).
Proof.
  intros E Hc. pose proof (nthZ_Some_range _ _ _ E) as Hb. unfold column.
  assert (P : (0 <= b * m_dim m)%Z) by (apply Z.mul_nonneg_nonneg; lia).
  rewrite nthZ_cons_pos by lia. replace (1 + b * m_dim m + c - 1)%Z with ((b - 0) * m_dim m + c)%Z by lia.
  rewrite (flat_map_nth_const _ 0 (lenZ bodies) (m_dim m) b c); [|intros y Hy|lia|lia].
  - rewrite E, nthZ_map, nthZ_zrange by lia. reflexivity.
  - destruct (nthZ_in_range bodies y Hy) as [bc' ->]. rewrite lenZ_map, zrange_lenZ by lia. lia.
Qed.

Lemma balance m D h B name bodies types values hist E H K w t f l c :
  mesh_setup m D -> uniform_around m h w bodies -> bodies_ok m D bodies -> getKernel name = Ok (K, w) ->
  bc_fits m types -> boundary_after m D types values hist B -> wide_enough m w ->
  (forall b i X, located bodies b i X -> clear m h (radius name) X) ->
  ib_operators m D B name bodies = Ok (E, H) ->
  reported m D bodies t f l -> (0 <= c < m_dim m)%Z ->
  zsum (fun id => if (component m D id =? c)%Z then cell_volume m h * mvec (n_forces m bodies) H f id else 0) 0 (n_velocity m) =
  - zsum (fun b => column l (1 + b * m_dim m + c)) 0 (lenZ bodies).
Proof.
  intros Hs Hu Hbo HK Hb HB Hw Hcl HE (force & Hf & ->) Hc.
  set (Lay := body_layout (nranks D) (m_dim m) (map fst bodies)) in *.
  set (x := fun id => if (component m D id =? c)%Z then 1 else 0).
  set (vel := fun row => if match nthZ Lay row with Some (_, _, c') => (c' =? c)%Z | None => false end then 1 else 0).
  assert (N : n_forces m bodies = lenZ Lay) by (unfold Lay; rewrite (body_layout_len (nranks D) (m_dim m) (map fst bodies) (proj1 Hbo)); reflexivity).
  destruct (spreading_preserves m D h B name bodies types values hist E H K w (n_forces m bodies) f vel (fun f => if (f =? c)%Z then 1 else 0) (fun _ _ => 0) x Hs Hu Hbo HK Hb HB Hw HE N) as [_ S].
  { intros id g p Ei. unfold x, component, affine. rewrite Ei. rewrite (zsum_ext _ (fun _ => 0)) by (intros; ring). rewrite zsum_zero by auto. ring. }
  { intros row b i c' X Er Hl. split; [eapply Hcl; eauto|]. unfold vel, affine. fold Lay in Er. rewrite Er. rewrite (zsum_ext _ (fun _ => 0)) by (intros; ring). rewrite zsum_zero by auto. ring. }
  rewrite (zsum_ext _ (fun id => cell_volume m h * mvec (n_forces m bodies) H f id * x id)).
  2: { intros id _. unfold x. destruct (component m D id =? c)%Z; ring. }
  rewrite S, N. unfold vel. unfold Lay. rewrite (sum_rows m D bodies f force c Hbo Hc Hf). unfold zsum at 1 3. rewrite <- sumR_opp. apply sumR_ext. intros b Hb'. apply zrange_In in Hb'.
  destruct (nthZ_in_range bodies b Hb') as [bc Eb]. rewrite Eb, (column_value m bodies t force b bc c Eb Hc). ring.
Qed.
