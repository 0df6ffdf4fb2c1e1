From Coq Require Import ZifyBool String.
From Verif Require Import Prelude ZSum RSum TypesModel GridModel GridSpec GridProof MeshProof
  IndexModel IndexSpec IndexProof BoundaryModel BoundarySpec OperatorModel OperatorSpec
  MatModel NSModel NSSpec NameModel DriverModel DriverSpec RestartProof
  BodyModel BodySpec BodyProof BodyUse DeltaModel DeltaSpec IbpmModel IbpmSpec IbpmProof IbpmDec IbpmMove IbOutModel IbOutSpec.
Local Open Scope R_scope.

(** * Local arrays *)
Lemma arrays_whole l (v : vec) n : (0 <= n)%Z -> (forall r, (0 <= r < n)%Z -> (0 <= l r)%Z) -> whole n (local_arrays l v) = map v (zrange 0 (isum l 0 n)).
Proof.
  intros Hn. rewrite <- (Z2Nat.id n) by lia. clear Hn. induction (Z.to_nat n) as [|k IH]; intros Hl; [reflexivity|].
  rewrite Nat2Z.inj_succ in *. unfold Z.succ in *. unfold whole in *. rewrite (zrange_app 0 (Z.of_nat k) (Z.of_nat k + 1)) by lia. rewrite (zrange_cons (Z.of_nat k)), (zrange_nil (Z.of_nat k + 1)) by lia. rewrite flat_map_app. cbn [flat_map]. rewrite app_nil_r.
  rewrite IH by (intros; apply Hl; lia). unfold local_arrays. rewrite isum_snoc by lia.
  assert (0 <= isum l 0 (Z.of_nat k))%Z by (apply isum_nonneg; intros; apply Hl; lia). pose proof (Hl (Z.of_nat k) ltac:(lia)).
  rewrite (zrange_app 0 (isum l 0 (Z.of_nat k)) (isum l 0 (Z.of_nat k) + l (Z.of_nat k))) by lia. now rewrite map_app.
Qed.
Lemma arrays_size size dim bodies (v : vec) : (forall r, (0 <= r < size)%Z -> (0 <= bp_nLclAllProcs dim bodies r)%Z) ->
  local_sizes size dim bodies (local_arrays (bp_nLclAllProcs dim bodies) v).
Proof. intros H r Hr. unfold local_arrays. rewrite lenZ_map, zrange_lenZ; [lia|]. specialize (H r Hr). lia. Qed.

Definition trip_eqb (a b : Z * Z * Z) : bool := (fst (fst a) =? fst (fst b))%Z && (snd (fst a) =? snd (fst b))%Z && (snd a =? snd b)%Z.
Lemma trip_eqb_spec a b : trip_eqb a b = true <-> a = b.
Proof. destruct a as [[a1 a2] a3], b as [[b1 b2] b3]. unfold trip_eqb. cbn [fst snd]. split; [intros H; f_equal; [f_equal|]; lia|intros H; injection H as -> -> ->; lia]. Qed.

Section Lines.
Variables (m : mesh) (D : dec) (bodies : list (body * list (list R))).
Hypothesis (Hbo : bodies_ok m D bodies).
Local Notation Lay := (body_layout (nranks D) (m_dim m) (map fst bodies)).
Local Notation nf := (n_forces m bodies).
Let Hok : pack_ok (nranks D) (m_dim m) (map fst bodies) := proj1 Hbo.

Lemma forces_range row : (0 <= row < nf)%Z -> exists b i c, nthZ Lay row = Some (b, i, c).
Proof.
  intros H. unfold n_forces in H. rewrite <- (body_layout_len (nranks D) (m_dim m) (map fst bodies) Hok) in H. destruct (nthZ_in_range Lay row H) as ([[b i] c] & E). eauto.
Qed.
Lemma layout_range row u : nthZ Lay row = Some u -> (0 <= row < nf)%Z.
Proof. intros H. apply nthZ_Some_range in H. rewrite (body_layout_len (nranks D) (m_dim m) (map fst bodies) Hok) in H. exact H. Qed.
Lemma nf_nonneg : (0 <= nf)%Z.
Proof. unfold n_forces. rewrite <- (body_layout_len (nranks D) (m_dim m) (map fst bodies) Hok). apply lenZ_nonneg. Qed.

Definition force_of (f : vec) (b i c : Z) : R := match findpos trip_eqb (b, i, c) Lay 0 with Some row => f row | None => 0 end.
Lemma force_of_at f row b i c : nthZ Lay row = Some (b, i, c) -> f row = force_of f b i c.
Proof.
  intros E. unfold force_of. destruct (findpos_In trip_eqb trip_eqb_spec (b, i, c) Lay 0%Z (nthZ_In _ _ _ E)) as [j Ej]. rewrite Ej.
  apply (findpos_Some trip_eqb trip_eqb_spec) in Ej. destruct Ej as [_ Ej]. rewrite Z.sub_0_r in Ej. f_equal.
  exact (nthZ_NoDup_inj _ _ _ _ (body_layout_NoDup (nranks D) (m_dim m) (map fst bodies) Hok) E Ej).
Qed.
Lemma arrays_hold f force : (forall row b i c, nthZ Lay row = Some (b, i, c) -> f row = force b i c) ->
  holds_forces (nranks D) (m_dim m) (map fst bodies) (local_arrays (bp_nLclAllProcs (m_dim m) (map fst bodies)) f) force.
Proof.
  intros H. unfold holds_forces. rewrite arrays_whole; [|pose proof (nranks_pos _ _ _ Hbo); lia|intros; now apply (forces_nonneg m D)].
  rewrite (forces_total m D bodies Hbo). pose proof nf_nonneg. apply nthZ_ext.
  - rewrite !lenZ_map, zrange_lenZ by lia. rewrite (body_layout_len (nranks D) (m_dim m) (map fst bodies) Hok). unfold n_forces. lia.
  - intros i Hi. rewrite lenZ_map, zrange_lenZ in Hi by lia. rewrite !nthZ_map, nthZ_zrange by lia. cbn [option_map]. rewrite Z.add_0_l.
    destruct (forces_range i ltac:(lia)) as (b & p & c & E). rewrite E. cbn [option_map]. now rewrite (H _ _ _ _ E).
Qed.

Lemma forces_line_value t f force : (forall row b i c, nthZ Lay row = Some (b, i, c) -> f row = force b i c) ->
  forces_line (nranks D) (m_dim m) (map fst bodies) t f = Ok (t :: flat_map (fun b => match nthZ bodies b with
      | Some bc => map (fun c => - zsum (fun i => force b i c) 0 (b_nPts (fst bc))) (zrange 0 (m_dim m)) | None => [] end) (zrange 0 (lenZ bodies))).
Proof.
  intros H. unfold forces_line.
  rewrite (avg_forces (nranks D) (m_dim m) (map fst bodies) Hok (local_arrays (bp_nLclAllProcs (m_dim m) (map fst bodies)) f) force
    (arrays_size _ _ _ f (fun r Hr => forces_nonneg m D bodies r Hbo Hr)) (arrays_hold f force H)). cbn [bind].
  set (row := fun b => map (fun c => - zsum (fun i => force b i c) 0 (match nthZ (map fst bodies) b with Some bo => b_nPts bo | None => 0%Z end)) (zrange 0 (m_dim m))).
  rewrite lenZ_map. pose proof (lenZ_nonneg bodies) as L. destruct Hok as (_ & Hd & _).
  rewrite (mapM_ok _ row); cbn [bind].
  - f_equal. f_equal. rewrite flat_map_concat_map. f_equal. apply map_ext_in. intros b Hb. apply zrange_In in Hb. unfold row. rewrite nthZ_map.
    destruct (nthZ_in_range bodies b Hb) as [bc E]. rewrite E. reflexivity.
  - intros b Hb. apply zrange_In in Hb. unfold rd at 1. rewrite nthZ_map, nthZ_zrange by lia. cbn [option_map bind]. rewrite Z.add_0_l.
    rewrite (mapM_ok _ (fun c => - zsum (fun i => force b i c) 0 (match nthZ (map fst bodies) b with Some bo => b_nPts bo | None => 0%Z end))); [reflexivity|].
    intros c Hc. apply zrange_In in Hc. unfold rd, row. rewrite (nthZ_map _ (zrange 0 (m_dim m)) c), nthZ_zrange by lia. reflexivity.
Qed.
Lemma forces_line_reported t f l : forces_line (nranks D) (m_dim m) (map fst bodies) t f = Ok l -> reported m D bodies t f l.
Proof.
  intros H. exists (force_of f). split; [intros; now apply force_of_at|]. rewrite (forces_line_value t f (force_of f)) in H by (intros; now apply force_of_at). now injection H as <-.
Qed.
Lemma forces_line_total t f : exists l, forces_line (nranks D) (m_dim m) (map fst bodies) t f = Ok l.
Proof. eexists. apply (forces_line_value t f (force_of f)). intros. now apply force_of_at. Qed.
Lemma forces_line_cong t f f' : veq nf f f' ->
  forces_line (nranks D) (m_dim m) (map fst bodies) t f = forces_line (nranks D) (m_dim m) (map fst bodies) t f'.
Proof.
  intros H. rewrite (forces_line_value t f (force_of f)) by (intros; now apply force_of_at). symmetry. apply forces_line_value.
  intros row b i c E. rewrite <- (H row (layout_range _ _ E)). now apply force_of_at.
Qed.
End Lines.
