(** The convection operator does no work on a velocity without divergence. *)
From Coq Require Import Permutation ZifyBool Lra.
From Verif Require Import Prelude ZSum RSum TypesModel GridModel GridSpec GridProof MeshProof
  IndexModel IndexSpec IndexProof BoundaryModel BoundarySpec BoundaryProof OperatorModel OperatorSpec OperatorProof
  MatModel BStateProof DivProof GradProof AdjProof NSModel NSSpec DeltaSpec DeltaProof ConvModel ConvSpec ConvProof ConvValue ConvTotal ConvProps
  DecSpec DecConv EnergySpec.
Local Open Scope R_scope.

Lemma zs_plus f g a b : zsum (fun i => f i + g i) a b = zsum f a b + zsum g a b.
Proof. unfold zsum. symmetry. rewrite <- sumR_plus. reflexivity. Qed.
Lemma zs_scal c f a b : zsum (fun i => c * f i) a b = c * zsum f a b.
Proof. unfold zsum. now rewrite <- sumR_scal. Qed.

Section Work.
Variables (m : mesh) (D : dec) (types : Z -> Z -> bctype) (values : Z -> Z -> R) (h : Z -> R) (hist : list bop) (B : boundary) (x : vec) (u0 : Z -> pt -> R).
Hypothesis (Hs : mesh_setup m D) (Hb : bc_fits m types) (Hi : impermeable m types values) (Hu : uniform m h)
  (HB : boundary_after m D types values hist B) (Hics : has_ics hist) (HX0 : extends_box m D B x u0).
Let F : mfacts m D := setup_facts _ _ Hs.
Let u : Z -> pt -> R := corner0 m u0.
Let HX : extends_box m D B x u := corner0_extends m D types values hist B x u0 F Hb HB HX0.

Let Hdim : (m_dim m = 2 \/ m_dim m = 3)%Z := mf_dim _ _ F.

(** ** Images *)
Lemma same_image g q q' : (0 <= g < m_dim m)%Z ->
  (forall e, (0 <= e < 3)%Z ->
     (pc q e = pc q' e /\ (0 <= pc q e < m_n m g e)%Z) \/
     (periodic_dir m e = true /\ (-1 <= pc q e <= m_n m g e)%Z /\ (-1 <= pc q' e <= m_n m g e)%Z /\ ((pc q e) mod (m_n m g e) = (pc q' e) mod (m_n m g e))%Z)) ->
  u g q = u g q'.
Proof.
  intros Hg H. destruct HX as [_ X].
  assert (I : forall z, (forall e, (0 <= e < 3)%Z -> (0 <= pc z e < m_n m g e)%Z \/ (periodic_dir m e = true /\ (-1 <= pc z e <= m_n m g e)%Z)) ->
    u g z = u g (image (m_n m g) z)).
  { intros z Hz. apply X; auto.
    - apply in_frame_pc. intros e He. destruct (Hz e He); lia.
    - apply has_image_pc. intros e He Ho. destruct (Hz e He) as [Hz'|[Hz' _]]; auto. unfold outside in Ho. lia. }
  rewrite (I q), (I q').
  - f_equal. apply pt_ext. intros e He. rewrite !pc_image by auto. unfold wrap. destruct (H e He) as [(-> & _)|(_ & _ & _ & E)]; auto.
  - intros e He. destruct (H e He) as [(<- & ?)|(? & _ & ? & _)]; auto.
  - intros e He. destruct (H e He) as [(_ & ?)|(? & ? & _)]; auto.
Qed.

(** ** Walls: the velocity normal to them vanishes, also one step beyond the end
    of another direction. *)
Lemma wall_zero d f q : (0 <= d < m_dim m)%Z -> (0 <= f < m_dim m)%Z -> periodic_dir m d = false ->
  (pc q d = -1 \/ pc q d = m_n m d d)%Z -> (0 <= pc q f <= m_n m d f)%Z \/ f = d -> (forall e, (0 <= e < 3)%Z -> e <> d -> e <> f -> (0 <= pc q e < m_n m d e)%Z) ->
  u d q = 0.
Proof.
  intros Hd Hf Hp Hq Qf Qe.
  assert (L0 : ghost_layer (m_n m d) (2 * d) = (-1)%Z) by (unfold ghost_layer; replace ((2 * d) mod 2)%Z with 0%Z by (rewrite Z.mul_comm, Z_mod_mult; reflexivity); reflexivity).
  assert (L1 : ghost_layer (m_n m d) (2 * d + 1) = m_n m d d).
  { unfold ghost_layer, loc_dir. replace ((2 * d + 1) mod 2)%Z with 1%Z by (rewrite Z.add_comm, Z.mul_comm, Z_mod_plus_full; reflexivity).
    replace ((2 * d + 1) / 2)%Z with d by (rewrite Z.add_comm, Z.mul_comm, Z_div_plus_full by lia; reflexivity). reflexivity. }
  assert (V0 : (2 * d / 2 = d)%Z) by (rewrite Z.mul_comm; apply Z_div_mult_full; lia).
  assert (V1 : ((2 * d + 1) / 2 = d)%Z) by (rewrite Z.add_comm, Z.mul_comm, Z_div_plus_full by lia; reflexivity).
  assert (Hn : forall e, (0 <= e < 3)%Z -> (1 <= m_n m d e)%Z) by (intros; eapply sizes_pos; eauto).
  assert (Hloc : exists loc, (0 <= loc < m_dim m * 2)%Z /\ (loc / 2 = d)%Z /\ pc q d = ghost_layer (m_n m d) loc).
  { destruct Hq as [Hq|Hq]; [exists (2 * d)%Z|exists (2 * d + 1)%Z]; repeat split; try lia; congruence. }
  destruct Hloc as (loc & Hl & Hld & Hgl).
  destruct (Z.eq_dec f d) as [->|Hne].
  - destruct HX as [HX' _]. eapply (wall_value m D types values hist B x u d loc q); eauto. split; unfold loc_dir; rewrite Hld; [exact Hgl|].
    rewrite interior_pc. intros e He. rewrite pc_setc by lia. destruct (Z.eqb_spec e d) as [->|Ne]; [|auto].
    destruct (layers (m_n m d) loc) as (Li & _); [unfold loc_dir; rewrite Hld; apply Hn; lia|]. unfold loc_dir in Li. rewrite Hld in Li. exact Li.
  - eapply (wall_or_corner m D types values hist B x u0 d loc f); eauto. destruct Qf; [auto|contradiction].
Qed.

(** ** Sizes *)
Lemma size_own f : (0 <= f < m_dim m)%Z -> m_n m f f = (if periodic_dir m f then m_n m 3 f else m_n m 3 f - 1)%Z.
Proof. exact (mf_n_own _ _ F f). Qed.
Lemma size_oth f d : (0 <= f < m_dim m)%Z -> (0 <= d < 3)%Z -> f <> d -> m_n m f d = m_n m 3 d.
Proof. exact (mf_n_oth _ _ F f d). Qed.
Lemma size_pos f d : (0 <= f < m_dim m \/ f = 3)%Z -> (0 <= d < 3)%Z -> (1 <= m_n m f d)%Z.
Proof. intros; eapply sizes_pos; eauto. Qed.

(** ** The identity at one point *)
Definition T (f d : Z) (p : pt) : R := (u d p + u d (shift p f 1)) / 2.
Definition Gt (f d : Z) (p : pt) : R := T f d p * u f p * u f (shift p d 1).

Lemma point_identity f d p : u f p * (momentum_flux u f d p - momentum_flux u f d (shift p d (-1)))
  = (u f p * u f p * (T f d p - T f d (shift p d (-1))) + (Gt f d p - Gt f d (shift p d (-1)))) / 2.
Proof. unfold momentum_flux, Gt, T. rewrite shift_back. field. Qed.

(** ** The part that telescopes *)
Lemma shift_comm p d s e t : (0 <= d < 3)%Z -> (0 <= e < 3)%Z -> shift (shift p d s) e t = shift (shift p e t) d s.
Proof. intros Hd He. apply pt_ext. intros a Ha. rewrite !pc_shift2 by auto. destruct (Z.eqb_spec a e), (Z.eqb_spec a d); lia. Qed.

Lemma wall_G_last f d p : (0 <= f < m_dim m)%Z -> (0 <= d < m_dim m)%Z -> periodic_dir m d = false -> interior (m_n m f) p ->
  pc p d = (m_n m f d - 1)%Z -> Gt f d p = 0.
Proof.
  intros Hf Hd Hp Hin E. rewrite interior_pc in Hin. unfold Gt. destruct (Z.eq_dec f d) as [<-|Hne].
  - rewrite (wall_zero f f (shift p f 1)); try ring; auto.
    + right. rewrite pc_shift2 by lia. rewrite Z.eqb_refl. lia.
    + intros e He N1 _. rewrite pc_shift2 by lia. replace (e =? f)%Z with false by lia. auto.
  - assert (Sf : (m_n m f f <= m_n m d f)%Z) by (rewrite (size_own f Hf), (size_oth d f) by lia; destruct (periodic_dir m f); lia).
    assert (Sd : (m_n m d d = m_n m f d - 1)%Z) by (rewrite (size_own d Hd), (size_oth f d), Hp by lia; lia).
    pose proof (Hin f ltac:(lia)) as Pf.
    unfold T. rewrite (wall_zero d f p), (wall_zero d f (shift p f 1)); try field; auto; try (right; lia); try (left; lia).
    + right. rewrite pc_shift2 by lia. replace (d =? f)%Z with false by lia. lia.
    + left. rewrite pc_shift2 by lia. rewrite Z.eqb_refl. lia.
    + intros e He N1 N2. rewrite pc_shift2 by lia. replace (e =? f)%Z with false by lia. rewrite (size_oth d e), <- (size_oth f e) by lia. auto.
    + intros e He N1 N2. rewrite (size_oth d e), <- (size_oth f e) by lia. auto.
Qed.
Lemma wall_G_first f d p : (0 <= f < m_dim m)%Z -> (0 <= d < m_dim m)%Z -> periodic_dir m d = false -> interior (m_n m f) p ->
  pc p d = 0%Z -> Gt f d (shift p d (-1)) = 0.
Proof.
  intros Hf Hd Hp Hin E. rewrite interior_pc in Hin. unfold Gt. destruct (Z.eq_dec f d) as [<-|Hne].
  - rewrite (wall_zero f f (shift p f (-1))); try ring; auto.
    + left. rewrite pc_shift2 by lia. rewrite Z.eqb_refl. lia.
    + intros e He N1 _. rewrite pc_shift2 by lia. replace (e =? f)%Z with false by lia. auto.
  - assert (Sf : (m_n m f f <= m_n m d f)%Z) by (rewrite (size_own f Hf), (size_oth d f) by lia; destruct (periodic_dir m f); lia).
    pose proof (Hin f ltac:(lia)) as Pf.
    unfold T. rewrite (wall_zero d f (shift p d (-1))), (wall_zero d f (shift (shift p d (-1)) f 1)); try field; auto.
    + left. rewrite !pc_shift2 by lia. rewrite Z.eqb_refl. replace (d =? f)%Z with false by lia. lia.
    + left. rewrite !pc_shift2 by lia. rewrite Z.eqb_refl. replace (f =? d)%Z with false by lia. lia.
    + intros e He N1 N2. rewrite !pc_shift2 by lia. replace (e =? f)%Z with false by lia. replace (e =? d)%Z with false by lia. rewrite (size_oth d e), <- (size_oth f e) by lia. auto.
    + left. rewrite !pc_shift2 by lia. rewrite Z.eqb_refl. lia.
    + left. rewrite !pc_shift2 by lia. replace (f =? d)%Z with false by lia. lia.
    + intros e He N1 N2. rewrite !pc_shift2 by lia. replace (e =? d)%Z with false by lia. rewrite (size_oth d e), <- (size_oth f e) by lia. auto.
Qed.

Lemma size_periodic f e : (0 <= f < m_dim m)%Z -> (0 <= e < m_dim m)%Z -> periodic_dir m e = true -> m_n m f e = m_n m 3 e.
Proof. intros Hf He Hp. destruct (Z.eq_dec f e) as [<-|Hne]; [rewrite size_own, Hp by auto; reflexivity|apply size_oth; lia]. Qed.

Lemma periodic_G f d p : (0 <= f < m_dim m)%Z -> (0 <= d < m_dim m)%Z -> periodic_dir m d = true -> interior (m_n m f) p ->
  pc p d = 0%Z -> Gt f d (shift p d (-1)) = Gt f d (setc p d (m_n m f d - 1)).
Proof.
  intros Hf Hd Hp Hin E. rewrite interior_pc in Hin. pose proof (size_pos f d (or_introl Hf) ltac:(lia)) as Hn.
  assert (N : forall g, (0 <= g < m_dim m)%Z -> m_n m g d = m_n m f d) by (intros g Hg; match goal with |- m_n _ ?a ?b = m_n _ ?c _ => rewrite (size_periodic a b), (size_periodic c b) by auto; reflexivity end).
  assert (M1 : ((-1) mod m_n m f d = (m_n m f d - 1) mod m_n m f d)%Z) by (replace (m_n m f d - 1)%Z with (-1 + 1 * m_n m f d)%Z by lia; now rewrite Z_mod_plus_full).
  assert (M2 : (0 mod m_n m f d = m_n m f d mod m_n m f d)%Z) by (rewrite Z_mod_same_full; reflexivity).
  assert (Sf : d <> f -> (m_n m f f <= m_n m d f)%Z) by (intros; rewrite (size_own f Hf), (size_oth d f) by lia; destruct (periodic_dir m f); lia).
  assert (Of : d <> f -> periodic_dir m f = true \/ (m_n m f f = m_n m d f - 1)%Z).
  { intros. rewrite (size_own f Hf), (size_oth d f) by lia. destruct (periodic_dir m f); auto. }
  assert (Pf : d <> f -> periodic_dir m f = true -> m_n m d f = m_n m f f) by (intros; match goal with |- m_n _ ?a ?b = m_n _ ?c _ => rewrite (size_periodic a b), (size_periodic c b) by auto; reflexivity end).
  pose proof (Hin f ltac:(lia)) as Rf.
  unfold Gt, T. f_equal; [f_equal; [f_equal; f_equal|]|].
  - apply same_image; auto. intros e He. rewrite pc_shift2, pc_setc by lia. destruct (Z.eqb_spec e d) as [->|Ne].
    + right. rewrite E, (N d) by auto. repeat split; auto; lia.
    + left. split; [reflexivity|]. specialize (Hin e He). destruct (Z.eq_dec e f) as [->|Nf]; [specialize (Sf ltac:(lia)); lia|].
      rewrite (size_oth d e), <- (size_oth f e) by lia. auto.
  - apply same_image; auto. intros e He. rewrite !pc_shift2, !pc_setc by lia. destruct (Z.eqb_spec e f) as [->|Nf].
    + destruct (Z.eqb_spec f d) as [Efd|Nd].
      * rewrite <- Efd in *. right. rewrite E. split; [exact Hp|]. split; [lia|]. split; [lia|].
        replace (-1 + 1)%Z with 0%Z by lia. replace (m_n m f f - 1 + 1)%Z with (m_n m f f) by lia. exact M2.
      * destruct (Of ltac:(lia)) as [Pf'|Pf']; [right|left; split; [reflexivity|lia]]. split; [exact Pf'|]. rewrite (Pf ltac:(lia) Pf'). repeat split; lia.
    + destruct (Z.eqb_spec e d) as [->|Nd].
      * right. rewrite E, (N d) by auto. repeat split; auto; lia.
      * left. split; [reflexivity|]. rewrite (size_oth d e), <- (size_oth f e) by lia. auto.
  - apply same_image; auto. intros e He. rewrite pc_shift2, pc_setc by lia. destruct (Z.eqb_spec e d) as [->|Ne]; [right|left; auto].
    rewrite E. repeat split; auto; lia.
  - apply same_image; auto. intros e He. rewrite !pc_shift2, pc_setc by lia. destruct (Z.eqb_spec e d) as [->|Ne]; [right|left; auto].
    rewrite E. split; [exact Hp|]. split; [lia|]. split; [lia|].
    replace (-1 + 1)%Z with 0%Z by lia. replace (m_n m f d - 1 + 1)%Z with (m_n m f d) by lia. exact M2.
Qed.

Lemma telescoping f d : (0 <= f < m_dim m)%Z -> (0 <= d < m_dim m)%Z ->
  sumR (fun p => point_area m f d p * (Gt f d p - Gt f d (shift p d (-1)))) (points m f) = 0.
Proof.
  intros Hf Hd. rewrite (telescope_points m f d (point_area m f d) (Gt f d)); [|lia|intros; apply area_shift; lia].
  destruct (periodic_dir m d) eqn:Hp.
  - apply Rminus_diag_eq. symmetry.
    rewrite (sumR_ext _ (fun p => (fun q => point_area m f d q * Gt f d q) (setc p d (m_n m f d - 1)))).
    + rewrite <- (sumR_map (fun p => setc p d (m_n m f d - 1)) (fun q => point_area m f d q * Gt f d q)).
      apply sumR_perm. apply layer_perm; [lia|]. apply size_pos; auto; lia.
    + intros p Hq. apply filter_In in Hq. destruct Hq as [Hq H0]. apply points_In in Hq. assert (H0' : pc p d = 0%Z) by lia.
      assert (Ea : point_area m f d (setc p d (m_n m f d - 1)) = point_area m f d p).
      { rewrite <- (area_shift m f d p (m_n m f d - 1)) by lia. unfold shift. rewrite H0'. reflexivity. }
      rewrite Ea. f_equal. now apply periodic_G.
  - rewrite !sumR_zero; [lra| |]; intros p Hq; apply filter_In in Hq; destruct Hq as [Hq H0]; apply points_In in Hq.
    + rewrite wall_G_first; auto; [ring|lia].
    + rewrite wall_G_last; auto; [ring|lia].
Qed.

(** ** The part that the divergence removes *)
Definition area (d : Z) : R :=
  (if (d =? 0)%Z then 1 else h 0%Z) * (if (d =? 1)%Z then 1 else h 1%Z) * (if (m_dim m =? 3)%Z then (if (d =? 2)%Z then 1 else h 2%Z) else 1).
Definition flow (p : pt) : R := zsum (fun d => area d * (u d p - u d (shift p d (-1)))) 0 (m_dim m).

Lemma point_area_const f d p : (0 <= f < m_dim m)%Z -> interior (m_n m f) p -> point_area m f d p = area d.
Proof.
  intros Hf Hp. rewrite interior_pc in Hp. unfold point_area, area.
  assert (W : forall e, (0 <= e < m_dim m)%Z -> wid m f e (pc p e) = h e).
  { intros e He. apply (uni_wid m D h Hs Hu); auto. specialize (Hp e ltac:(lia)). lia. }
  destruct Hdim as [E|E]; rewrite E in *; cbn [Z.eqb Pos.eqb]; rewrite ?W by lia; reflexivity.
Qed.
Lemma face_area_const d p : (0 <= d < m_dim m)%Z -> interior (m_n m 3) p -> face_area m false d p = area d.
Proof.
  intros Hd Hp. rewrite interior_pc in Hp. unfold face_area, area.
  assert (W : forall e, (0 <= e < m_dim m)%Z -> e <> d -> wid m d e (pc p e) = h e).
  { intros e He Hne. apply (uni_wid m D h Hs Hu); auto. specialize (Hp e ltac:(lia)). rewrite (size_oth d e) by lia. lia. }
  destruct Hdim as [E|E].
  - destruct (mf_flat _ _ F d (or_introl Hd) E) as (N2 & _ & W2). pose proof (Hp 2%Z ltac:(lia)) as P2. rewrite (proj1 (mf_flat _ _ F 3 (or_intror eq_refl) E)) in P2.
    assert (E2 : pc p 2 = 0%Z) by lia. rewrite E. assert (d = 0 \/ d = 1)%Z as [->| ->] by lia; cbn [perp0 perp1 Z.eqb Pos.eqb]; rewrite ?E2, ?W2, ?W by lia; ring.
  - rewrite E. assert (d = 0 \/ d = 1 \/ d = 2)%Z as [->|[->| ->]] by lia; cbn [perp0 perp1 Z.eqb Pos.eqb]; rewrite ?W by lia; ring.
Qed.

Hypothesis Hdiv : forall p, interior (m_n m 3) p -> net_flux m false u p = 0.
Lemma flow_zero p : interior (m_n m 3) p -> flow p = 0.
Proof.
  intros Hp. rewrite <- (Hdiv p Hp). unfold flow, net_flux. apply zsum_ext. intros d Hd. now rewrite face_area_const.
Qed.

Lemma flow_next f p : (0 <= f < m_dim m)%Z -> interior (m_n m f) p -> flow (shift p f 1) = 0.
Proof.
  intros Hf Hp. pose proof Hp as Hin. rewrite interior_pc in Hin. pose proof (size_own f Hf) as So.
  assert (O : forall e, (0 <= e < 3)%Z -> e <> f -> (0 <= pc p e < m_n m 3 e)%Z) by (intros e He Hne; rewrite <- (size_oth f e) by lia; auto).
  pose proof (Hin f ltac:(lia)) as Pf.
  destruct (Z.eq_dec (pc p f + 1) (m_n m 3 f)) as [E|E].
  - destruct (periodic_dir m f) eqn:Hp'; [|lia].
    assert (I0 : interior (m_n m 3) (setc p f 0)).
    { rewrite interior_pc. intros e He. rewrite pc_setc by lia. destruct (Z.eqb_spec e f) as [->|Ne]; [lia|auto]. }
    assert (Face : forall d c, (0 <= d < m_dim m)%Z -> (c = 0 \/ c = -1)%Z ->
      u d (shift (shift p f 1) d c) = u d (shift (setc p f 0) d c)).
    { intros d c Hd Hc. pose proof (size_own d Hd) as Sd. destruct (Z.eq_dec d f) as [->|Hne].
      - apply same_image; auto. intros e He. rewrite !pc_shift2, !pc_setc by lia. destruct (Z.eqb_spec e f) as [->|Ne].
        + right. rewrite Hp' in Sd. split; [exact Hp'|]. rewrite E. rewrite Sd. split; [lia|]. split; [lia|].
          replace (m_n m 3 f + c)%Z with (0 + c + 1 * m_n m 3 f)%Z by lia. now rewrite Z_mod_plus_full.
        + left. rewrite (size_oth f e) by lia. auto.
      - assert (Sf : m_n m d f = m_n m 3 f) by (apply size_oth; lia). pose proof (O d ltac:(lia) ltac:(lia)) as Od.
        assert (Oe : forall e, (0 <= e < 3)%Z -> e <> d -> e <> f -> (0 <= pc p e < m_n m d e)%Z) by (intros e He N1 N2; rewrite (size_oth d e) by lia; auto).
        destruct (orb (periodic_dir m d) (andb (0 <=? pc p d + c) (pc p d + c <? m_n m d d))%Z) eqn:K.
        + apply same_image; auto. intros e He. rewrite !pc_shift2, !pc_setc by lia. destruct (Z.eqb_spec e f) as [->|Ne].
          * replace (f =? d)%Z with false by lia. right. split; [exact Hp'|]. rewrite E, Sf. split; [lia|]. split; [lia|]. now rewrite Z_mod_same_full, Z.mod_0_l by lia.
          * destruct (Z.eqb_spec e d) as [->|Nd]; [|left; auto].
            apply orb_prop in K. destruct K as [K|K]; [right|left; split; [reflexivity|lia]].
            rewrite K in Sd. rewrite Sd. repeat split; auto; lia.
        + apply orb_false_elim in K. destruct K as [K1 K2]. rewrite K1 in Sd.
          rewrite !(wall_zero d f); auto.
          * rewrite !pc_shift2, !pc_setc by lia. replace (d =? f)%Z with false by lia. rewrite Z.eqb_refl. lia.
          * left. rewrite !pc_shift2, !pc_setc by lia. replace (f =? d)%Z with false by lia. rewrite Z.eqb_refl. lia.
          * intros e He N1 N2. rewrite !pc_shift2, !pc_setc by lia. replace (e =? d)%Z with false by lia. replace (e =? f)%Z with false by lia. auto.
          * rewrite !pc_shift2 by lia. replace (d =? f)%Z with false by lia. rewrite Z.eqb_refl. lia.
          * left. rewrite !pc_shift2 by lia. replace (f =? d)%Z with false by lia. rewrite Z.eqb_refl. lia.
          * intros e He N1 N2. rewrite !pc_shift2 by lia. replace (e =? d)%Z with false by lia. replace (e =? f)%Z with false by lia. auto. }
    assert (S0 : forall q d, (0 <= d < 3)%Z -> shift q d 0 = q).
    { intros q d Hd. apply pt_ext. intros e He. rewrite pc_shift2 by lia. destruct (e =? d)%Z; lia. }
    rewrite <- (flow_zero (setc p f 0) I0). unfold flow. apply zsum_ext. intros d Hd. f_equal. f_equal.
    + pose proof (Face d 0%Z Hd (or_introl eq_refl)) as H0. rewrite !S0 in H0 by lia. exact H0.
    + apply Face; auto.
  - apply flow_zero. rewrite interior_pc. intros e He. rewrite pc_shift2 by lia. destruct (Z.eqb_spec e f) as [->|Ne]; [|auto]. destruct (periodic_dir m f); lia.
Qed.

(** ** One component, then all of them *)
Lemma transport_flow f p : (0 <= f < m_dim m)%Z -> interior (m_n m f) p ->
  zsum (fun d => area d * (T f d p - T f d (shift p d (-1)))) 0 (m_dim m) = 0.
Proof.
  intros Hf Hp.
  assert (I3 : interior (m_n m 3) p).
  { rewrite interior_pc in *. intros e He. specialize (Hp e He). destruct (Z.eq_dec e f) as [->|Ne]; [rewrite (size_own f Hf) in Hp; destruct (periodic_dir m f); lia|].
    rewrite <- (size_oth f e) by lia. exact Hp. }
  pose proof (flow_zero p I3) as Z1. pose proof (flow_next f p Hf Hp) as Z2. unfold flow in Z1, Z2.
  rewrite (zsum_ext _ (fun d => / 2 * (area d * (u d p - u d (shift p d (-1)))) + / 2 * (area d * (u d (shift p f 1) - u d (shift (shift p f 1) d (-1)))))).
  - rewrite zs_plus, !zs_scal, Z1, Z2. ring.
  - intros d Hd. unfold T. rewrite (shift_comm p d (-1) f 1) by lia. field.
Qed.

Lemma component_work f : (0 <= f < m_dim m)%Z ->
  sumR (fun p => point_volume m f p * (u f p * convection_at m u f p)) (points m f) = 0.
Proof.
  intros Hf.
  rewrite (sumR_ext _ (fun p => zsum (fun d => / 2 * (point_area m f d p * (Gt f d p - Gt f d (shift p d (-1))))) 0 (m_dim m))).
  - unfold zsum. rewrite sumR_swap. apply sumR_zero. intros d Hd. apply zrange_In in Hd.
    rewrite sumR_scal, telescoping by (auto; lia). ring.
  - intros p Hp. apply points_In in Hp.
    pose proof (transport_flow f p Hf Hp) as Z0.
    transitivity (u f p * u f p * / 2 * zsum (fun d => area d * (T f d p - T f d (shift p d (-1)))) 0 (m_dim m)
      + zsum (fun d => / 2 * (point_area m f d p * (Gt f d p - Gt f d (shift p d (-1))))) 0 (m_dim m)); [|rewrite Z0; ring].
    rewrite <- zs_scal, <- zs_plus. unfold convection_at. rewrite <- Rmult_assoc, <- zs_scal. apply zsum_ext. intros d Hd.
    pose proof (point_identity f d p) as PI. pose proof (proj2 (volume_area m D f d p F Hf Hp Hd)) as VA.
    rewrite (point_area_const f d p Hf Hp) in *.
    transitivity (point_volume m f p / wid m f d (pc p d) * (u f p * (momentum_flux u f d p - momentum_flux u f d (shift p d (-1))))); [unfold Rdiv; ring|].
    rewrite VA, PI. field.
Qed.
End Work.

(** ** Two extensions of the same vector have the same fluxes *)
Lemma flux_same m D types values hist B x u v : mesh_setup m D -> bc_fits m types -> impermeable m types values ->
  boundary_after m D types values hist B -> has_ics hist -> extends m D B x u -> extends m D B x v ->
  forall p, interior (m_n m 3) p -> net_flux m false u p = net_flux m false v p.
Proof.
  intros Hs Hb Hi HB Hh Xu Xv p Hp. pose proof (setup_facts _ _ Hs) as F. pose proof (mf_dim _ _ F) as Hdim.
  assert (K : forall f s, (0 <= f < m_dim m)%Z -> (s = 0 \/ s = -1)%Z -> u f (shift p f s) = v f (shift p f s)).
  { intros f s Hf Es.
    assert (I : forall z, interior (m_n m f) z -> u f z = v f z).
    { intros z Hz. destruct (idx_spec m D f z F Hf Hz) as [_ N]. now rewrite (proj1 Xu _ _ _ N), (proj1 Xv _ _ _ N). }
    destruct (face_cases m D f p s F Hf Hp Es) as [(Ii & _ & O)|(_ & Hper & L1 & L2 & L3 & _)].
    - destruct O as [O|(O1 & O2 & O3 & _)]; [now apply I|].
      rewrite (proj1 (proj2 Xu) f (shift p f s)), (proj1 (proj2 Xv) f (shift p f s)) by auto. now apply I.
    - rewrite (wall_value m D types values hist B x u f _ _ F Hb Hi HB Hh Xu Hf L1 L2 Hper L3).
      now rewrite (wall_value m D types values hist B x v f _ _ F Hb Hi HB Hh Xv Hf L1 L2 Hper L3). }
  unfold net_flux. apply zsum_ext. intros f Hf. f_equal. f_equal; [|now apply K; auto].
  pose proof (K f 0%Z Hf (or_introl eq_refl)) as K0. rewrite shift0 in K0 by lia. exact K0.
Qed.

(** ** The whole vector *)
Lemma inner_integrals m D x y : mesh_setup m D -> inner m D x y = zsum (fun f => integral m D f (fun i => x i * y i)) 0 (m_dim m).
Proof.
  intros Hs. pose proof (setup_facts _ _ Hs) as F. unfold inner, integral, zsum at 1 2 3. rewrite sumR_swap. apply sumR_ext. intros i Hi. apply zrange_In in Hi.
  destruct (velocity_ids m D i F Hi) as (f & p & E). rewrite E. destruct (velocity_row m D i f p F E) as (Hf & _).
  unfold volume. rewrite E. rewrite (sumR_single _ _ f); [now rewrite Z.eqb_refl|apply zrange_NoDup|apply zrange_In; lia|].
  intros g _ Hne. destruct (Z.eqb_spec f g); [congruence|reflexivity].
Qed.

Lemma no_work m D types values C hist B x u y C' h : mesh_setup m D -> bc_fits m types -> impermeable m types values -> uniform m h ->
  conv_state m D types values C -> has_ics hist -> boundary_after m D types values hist B ->
  extends m D B x u -> (forall p, interior (m_n m 3) p -> net_flux m false u p = 0) ->
  convectionMult m D C B x = Ok (y, C') -> inner m D x y = 0.
Proof.
  intros Hs Hb Hi Hu HC Hh HB HX Hdiv E. pose proof (setup_facts _ _ Hs) as F.
  destruct (extends_box_exists m D types values hist B x F Hb HB) as [u0 HX0].
  pose proof (corner0_extends m D types values hist B x u0 F Hb HB HX0) as HX1.
  rewrite (inner_integrals m D x y Hs). unfold zsum. apply sumR_zero. intros f Hf. apply zrange_In in Hf.
  rewrite (integral_points m D f _ (fun p => corner0 m u0 f p * convection_at m (corner0 m u0) f p) F Hf).
  - apply (component_work m D types values h hist B x u0 Hs Hb Hi Hu HB Hh HX0); auto.
    intros p Hp. rewrite <- (Hdiv p Hp). eapply flux_same; eauto. apply HX1.
  - intros id p Hid. destruct (velocity_row m D id f p F Hid) as (_ & Hp & _). f_equal; [symmetry; now apply (proj1 (proj1 HX1))|].
    eapply conv_value_lemma; eauto. eapply quiet_impermeable; eauto.
Qed.
