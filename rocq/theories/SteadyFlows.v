(** Uniform flow and flow between moving walls are steady. *)
From Coq Require Import Lia ZifyBool List Lra.
Import ListNotations.
From Verif Require Import Prelude ZSum RSum TypesModel GridModel GridSpec GridProof MeshProof
  IndexModel IndexSpec IndexProof BoundaryModel BoundarySpec BoundaryProof OperatorModel OperatorSpec OperatorProof BStateProof
  ConvModel ConvSpec ConvTotal SteadySpec.
Local Open Scope R_scope.

Lemma second_flat m f d v i : (forall j, v j = v i) -> second_difference m f d v i = 0.
Proof. intros H. unfold second_difference. rewrite (H (i + 1)%Z), (H (i - 1)%Z). unfold Rdiv. ring. Qed.

Lemma free_stream_steady m D nu types values c a : mesh_setup m D -> lets_through m types values c ->
  (forall f d, (0 <= f < m_dim m)%Z -> (0 <= d < m_dim m)%Z -> d <> f -> periodic_dir m d = false ->
     (ds_np D f = 1%Z /\ periodic_dir m f = false) \/ c d = 0 \/ c f = 0) ->
  steady_flow m D nu types values (fun f _ => c f) (fun _ => a).
Proof.
  intros Hs Hl Hq. split; [|split; [|split]].
  - intros f q _ _ _. reflexivity.
  - intros f loc q Hf Hlo Hp _ d t. destruct (Hl f loc Hf Hlo Hp) as [[-> ->]|[[-> ->]| ->]]; [|unfold Rdiv; ring|reflexivity].
    destruct (d =? f)%Z; lra.
  - intros f p Hf Hp. split; [apply uniform_zero|]. split.
    + intros d Hd Hne Hper. destruct (Hq f d Hf Hd Hne Hper) as [H|H]; [now left|right]. split; intros _; (destruct H as [->| ->]; [left; auto|right; ring]).
    + unfold gradient_at, Rdiv. rewrite Rminus_diag_eq by reflexivity.
      unfold laplacian_at, zsum. rewrite sumR_zero; [ring|]. intros d _. now apply second_flat.
  - intros p _. unfold net_flux, zsum. apply sumR_zero. intros f _. rewrite Rminus_diag_eq by reflexivity. ring.
Qed.

Lemma wall_mirror m D e d : mesh_setup m D -> (0 <= e < m_dim m)%Z -> (0 <= d < m_dim m)%Z -> e <> d -> periodic_dir m d = false ->
  crd m e d (-1) + crd m e d 0 = 2 * m_min m d /\ crd m e d (m_n m e d) + crd m e d (m_n m e d - 1) = 2 * m_max m d.
Proof.
  intros (mn & mx & per & w & np & Hg & Hm & Hper & _) He Hd Hne Hp. pose proof (createMesh_misc _ _ _ _ _ _ Hm) as (_ & E1 & E2 & Hpe).
  unfold periodic_dir in Hp. rewrite Hpe, <- (Hper e d He Hd) in Hp.
  destruct (other_statement _ _ _ _ _ _ Hg Hm e d He Hd Hne Hp) as (-> & _ & (x & X1 & X2) & (y & Y1 & Y2) & _).
  unfold crd. rewrite X1, X2, Y1, Y2, E1, E2. cbn [ok_or]. split; lra.
Qed.
Lemma box_positive m D d : mesh_setup m D -> (0 <= d < m_dim m)%Z -> m_min m d < m_max m d.
Proof.
  intros (mn & mx & per & w & np & Hg & Hm & Hper & _) Hd. pose proof (createMesh_misc _ _ _ _ _ _ Hm) as (_ & E1 & E2 & Hpe). rewrite E1, E2.
  destruct (vertex_statement _ _ _ _ _ _ Hg Hm d Hd) as (_ & V0 & VN & V & I).
  destruct (axis_facts _ _ _ _ Hg d Hd) as (HN & Hpos & Hmx).
  exact (I 0%Z (lenZ (w d)) _ _ HN V0 VN).
Qed.

Section Couette.
Variables (m : mesh) (D : dec) (types : Z -> Z -> bctype) (values : Z -> Z -> R) (e d : Z) (a b : R).
Hypotheses (Hset : mesh_setup m D) (He : (0 <= e < m_dim m)%Z) (Hd : (0 <= d < m_dim m)%Z) (Hne : e <> d) (Hw : two_walls m types values e d a b).
Let F : mfacts m D := setup_facts _ _ Hset.
Let u := couette m e d a b.

Lemma couette_same f p q : pc p d = pc q d -> u f p = u f q.
Proof. intros E. unfold u, couette. now rewrite E. Qed.
Lemma couette_zero f p : f <> e -> u f p = 0.
Proof. intros H. unfold u, couette. destruct (Z.eqb_spec f e); [contradiction|reflexivity]. Qed.
Lemma couette_shift f p g s : (0 <= g < m_dim m)%Z -> g <> d -> u f (shift p g s) = u f p.
Proof. intros Hg Hgd. pose proof (mf_dim _ _ F). apply couette_same. rewrite pc_shift by lia. destruct (Z.eqb_spec d g); [congruence|reflexivity]. Qed.

Lemma couette_repeats : repeats m u.
Proof.
  intros f q Hf Hq Hi. pose proof (mf_dim _ _ F) as Hdim. apply couette_same. rewrite pc_image by lia.
  pose proof (proj1 (has_image_pc _ _ _) Hi d ltac:(lia)) as X. destruct Hw as [Hp _]. rewrite (Hp d Hd), Z.eqb_refl in X. unfold wrap. destruct (outside (m_n m f d) (pc q d)) eqn:E; [discriminate (X eq_refl)|].
  unfold outside in E. rewrite Z.mod_small by lia. reflexivity.
Qed.
Lemma couette_ghosts : steady_ghosts m types values u.
Proof.
  intros f loc q Hf Hl Hp (G1 & G2) dd t. destruct Hw as [Hper Hval]. pose proof (mf_dim _ _ F) as Hdim.
  assert (Ed : loc_dir loc = d).
  { destruct (Z.eq_dec (loc_dir loc) d); auto. exfalso. rewrite Hper in Hp; [destruct (Z.eqb_spec (loc_dir loc) d); [contradiction|discriminate]|]. apply loc_dir_range in Hl. lia. }
  assert (Lo : (loc = 2 * d \/ loc = 2 * d + 1)%Z). { unfold loc_dir in Ed. pose proof (Z.div_mod loc 2 ltac:(lia)). pose proof (Z.mod_pos_bound loc 2 ltac:(lia)). lia. }
  destruct (Hval f loc Hf Lo) as [-> ->]. unfold dd. rewrite Ed in *.
  destruct (Z.eqb_spec f e) as [->|Hfe].
  - destruct (Z.eqb_spec d e); [congruence|]. unfold t, u, couette. rewrite Z.eqb_refl. unfold inner_of. rewrite Ed, pc_setc, Z.eqb_refl by lia. rewrite G1.
    assert (Hpd : periodic_dir m d = false) by exact Hp.
    destruct (wall_mirror m D e d Hset He Hd Hne Hpd) as [M1 M2]. pose proof (box_positive m D d Hset Hd) as Bp.
    unfold ghost_layer, inner_layer. rewrite Ed. destruct Lo as [-> | ->].
    + replace ((2 * d) mod 2)%Z with 0%Z by (rewrite Z.mul_comm, Z_mod_mult; reflexivity). rewrite !Z.eqb_refl.
      replace (crd m e d (-1)) with (2 * m_min m d - crd m e d 0) by lra. field. lra.
    + replace ((2 * d + 1) mod 2)%Z with 1%Z by (rewrite Z.add_comm, Z.mul_comm, Z_mod_plus_full; reflexivity). change (1 =? 0)%Z with false. cbn iota.
      destruct (Z.eqb_spec (2 * d + 1) (2 * d)); [lia|].
      replace (crd m e d (m_n m e d)) with (2 * m_max m d - crd m e d (m_n m e d - 1)) by lra. field. lra.
  - rewrite !couette_zero by auto. destruct (d =? f)%Z; lra.
Qed.
Lemma couette_flux f g p : (0 <= f < m_dim m)%Z -> (0 <= g < m_dim m)%Z -> momentum_flux u f g p - momentum_flux u f g (shift p g (-1)) = 0.
Proof.
  intros Hf Hg. unfold momentum_flux. destruct (Z.eq_dec f e) as [->|Hfe].
  - destruct (Z.eq_dec g e) as [->|Hge].
    + rewrite !couette_shift by auto. ring.
    + rewrite !(couette_zero g) by auto. unfold Rdiv. ring.
  - rewrite !(couette_zero f) by auto. unfold Rdiv. ring.
Qed.
Lemma couette_lap f p : (0 <= f < m_dim m)%Z -> interior (m_n m f) p -> laplacian_at m f u p = 0.
Proof.
  intros Hf Hp. pose proof (mf_dim _ _ F) as Hdim. unfold laplacian_at, zsum. apply sumR_zero. intros g Hg. apply zrange_In in Hg.
  destruct (Z.eq_dec g d) as [->|Hgd].
  - destruct (Z.eq_dec f e) as [->|Hfe].
    + unfold second_difference, u, couette. rewrite Z.eqb_refl. rewrite !pc_setc, !Z.eqb_refl by lia.
      pose proof (proj1 (interior_pc _ _) Hp d ltac:(lia)) as Hi. pose proof (box_positive m D d Hset Hd) as Bp.
      pose proof (mf_incr _ _ F e d (pc p d) (pc p d + 1) He Hd ltac:(lia) ltac:(lia) ltac:(lia)) as I1.
      pose proof (mf_incr _ _ F e d (pc p d - 1) (pc p d) He Hd ltac:(lia) ltac:(lia) ltac:(lia)) as I2.
      pose proof (proj2 (mf_wid _ _ F e d (pc p d) He Hd ltac:(lia))) as W. field. repeat split; lra.
    + apply second_flat. intros j. now rewrite !couette_zero.
  - apply second_flat. intros j. apply couette_same. rewrite !pc_setc by lia. destruct (Z.eqb_spec d g); [congruence|reflexivity].
Qed.
Lemma couette_steady nu a0 : steady_flow m D nu types values u (fun _ => a0).
Proof.
  pose proof (mf_dim _ _ F) as Hdim. split; [exact couette_repeats|]. split; [exact couette_ghosts|]. split.
  - intros f p Hf Hp. split; [|split].
    + unfold convection_at, zsum. apply sumR_zero. intros g Hg. apply zrange_In in Hg. rewrite couette_flux by auto. unfold Rdiv. ring.
    + intros g Hg Hgf Hper. destruct Hw as [Hwp _]. rewrite (Hwp g Hg) in Hper. destruct (Z.eqb_spec g d) as [->|]; [|discriminate].
      right. split; intros _; left; rewrite !couette_zero by auto; auto.
    + rewrite couette_lap by auto. unfold gradient_at, Rdiv. rewrite (Rminus_diag_eq a0) by reflexivity. ring.
  - intros p Hp. unfold net_flux, zsum. apply sumR_zero. intros f Hf. apply zrange_In in Hf.
    destruct (Z.eq_dec f e) as [->|Hfe]; [rewrite couette_shift by auto; ring|rewrite !couette_zero by auto; ring].
Qed.
End Couette.
