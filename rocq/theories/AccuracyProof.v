(** Accuracy of the discrete operators on smooth fields. *)
From Coq Require Import ZifyBool.
From Verif Require Import Prelude ZSum RSum TypesModel GridModel GridSpec GridProof MeshProof IndexModel IndexSpec IndexProof
  BoundaryModel BoundarySpec BoundaryProof OperatorModel OperatorSpec OperatorProof BStateProof MatModel ConvModel ConvSpec BodyModel BodySpec DeltaModel DeltaSpec DeltaProof
  AccuracySpec AccuracyMesh Taylor.
Local Open Scope R_scope.

Lemma zsum_dist (a b c : Z -> R) lo hi : (forall i, (lo <= i < hi)%Z -> Rabs (a i - b i) <= c i) -> Rabs (zsum a lo hi - zsum b lo hi) <= zsum c lo hi.
Proof.
  intros H. unfold zsum. assert (K : forall i, In i (zrange lo hi) -> Rabs (a i - b i) <= c i) by (intros i Hi; apply H; now apply zrange_In).
  clear H. induction (zrange lo hi) as [|i l IH]; cbn [sumR].
  - rewrite Rminus_diag_eq, Rabs_R0 by reflexivity. lra.
  - specialize (IH ltac:(intros; apply K; now right)). pose proof (K i ltac:(now left)) as K0.
    replace (a i + sumR a l - (b i + sumR b l)) with ((a i - b i) + (sumR a l - sumR b l)) by lra. eapply Rle_trans; [apply Rabs_triang|]. lra.
Qed.
Lemma times_close (a A b B ea eb K : R) : Rabs (a - A) <= ea -> Rabs (b - B) <= eb -> Rabs A <= K -> Rabs B <= K ->
  Rabs (a * b - A * B) <= K * ea + K * eb + ea * eb.
Proof.
  intros H1 H2 H3 H4. replace (a * b - A * B) with (B * (a - A) + A * (b - B) + (a - A) * (b - B)) by ring.
  pose proof (Rabs_pos (a - A)). pose proof (Rabs_pos (b - B)). pose proof (Rabs_pos A). pose proof (Rabs_pos B).
  eapply Rle_trans; [apply Rabs_triang|]. eapply Rle_trans; [apply Rplus_le_compat_r, Rabs_triang|]. rewrite !Rabs_mult.
  apply Rplus_le_compat; [apply Rplus_le_compat|]; apply Rmult_le_compat; lra.
Qed.
Lemma over_close (a b c e : R) : 0 < c -> Rabs (a - c * b) <= c * e -> Rabs (a / c - b) <= e.
Proof.
  intros Hc H. replace (a / c - b) with ((a - c * b) / c) by (field; lra). unfold Rdiv. rewrite Rabs_mult, (Rabs_pos_eq (/ c)) by (left; now apply Rinv_0_lt_compat).
  apply (Rmult_le_reg_r c); [exact Hc|]. rewrite Rmult_assoc, Rinv_l, Rmult_1_r by lra. lra.
Qed.

Section Accuracy.
Context (m : mesh) (D : dec) (Hs : mesh_setup m D).
Let F := setup_facts m D Hs.
Let Hdim : (m_dim m = 2 \/ m_dim m = 3)%Z := mf_dim _ _ F.

Lemma site_shift f p d s : (0 <= d < m_dim m)%Z -> site m f (shift p d s) = put (site m f p) d (crd m f d (pc p d + s)).
Proof.
  intros Hd. apply spot_ext. intros e He. rewrite sc_put by lia. destruct (Z_lt_dec e (m_dim m)) as [He'|He'].
  - rewrite !sc_site by (auto; lia). rewrite pc_shift by lia. destruct (Z.eqb_spec e d) as [->|]; reflexivity.
  - assert (m_dim m = 2)%Z by lia. replace e with 2%Z by lia. replace (2 =? d)%Z with false by lia. now rewrite !sc_site_flat.
Qed.

(** Sizes. *)
Lemma n_own f : (0 <= f < m_dim m)%Z -> m_n m f f = (if periodic_dir m f then m_n m 3 f else m_n m 3 f - 1)%Z.
Proof. exact (mf_n_own _ _ F f). Qed.
Lemma n_oth f d : (0 <= f < m_dim m)%Z -> (0 <= d < 3)%Z -> f <> d -> m_n m f d = m_n m 3 d.
Proof. exact (mf_n_oth _ _ F f d). Qed.
Lemma n_per f d : (0 <= f < m_dim m)%Z -> (0 <= d < m_dim m)%Z -> periodic_dir m d = true -> m_n m f d = m_n m 3 d.
Proof. intros Hf Hd Hp. destruct (Z.eq_dec f d) as [<-|Hne]; [rewrite n_own, Hp by auto; reflexivity|apply n_oth; lia]. Qed.

(** ** The Laplacian *)
Section At.
Context (f : Z) (Hf : (0 <= f < m_dim m)%Z) (p : pt) (Hp : interior (m_n m f) p) (Hw : off_walls m f p).
Let Hpc : forall d, (0 <= d < 3)%Z -> (0 <= pc p d < m_n m f d)%Z := proj1 (interior_pc _ _) Hp.
Let s0 := site m f p.

Lemma next_to d s : (0 <= d < m_dim m)%Z -> (-1 <= s <= 1)%Z -> inside_or_around m f (shift p d s).
Proof.
  intros Hd Hs1 e He. rewrite pc_shift by lia. pose proof (Hpc e He) as He1. destruct (Z.eqb_spec e d) as [->|Hne]; [|now left].
  destruct (periodic_dir m d) eqn:P; [right; split; [lia|split; [reflexivity|lia]]|left]. specialize (Hw d Hd P). lia.
Qed.
Lemma cells_near d k : (0 <= d < m_dim m)%Z -> (pc p d - 1 <= k <= pc p d + 1)%Z -> (d = f -> pc p d <= k)%Z -> at_cell m d k.
Proof.
  intros Hd Hk Ho. pose proof (Hpc d ltac:(lia)) as H1. unfold at_cell. destruct (periodic_dir m d) eqn:P.
  - right. split; auto. rewrite (n_per f d Hf Hd P) in H1. lia.
  - left. specialize (Hw d Hd P). destruct (Z.eq_dec f d) as [<-|Hne]; [rewrite n_own, P in * by auto; lia|rewrite n_oth in * by (auto; lia); lia].
Qed.
Context (h : Z -> R) (He : even_cells m p h).
Lemma even_width d k : (0 <= d < m_dim m)%Z -> (pc p d - 1 <= k <= pc p d + 1)%Z -> (d = f -> pc p d <= k)%Z -> EW m d k = h d.
Proof.
  intros Hd Hk Ho. pose proof (cells_near d k Hd Hk Ho) as Hc. pose proof (n3_pos m D Hs d Hd) as N. unfold EW.
  assert (Hk1 : (-1 <= k <= m_n m 3 d)%Z) by (destruct Hc as [Hc|[_ Hc]]; lia).
  assert (Wr : (0 <= wrap (m_n m 3 d) k < m_n m 3 d)%Z) by (unfold wrap; apply Z.mod_pos_bound; lia).
  apply He; auto. unfold near_cell. destruct (wrap_cases m D Hs d k Hd Hk1) as [(-> & E)|[(E0 & E)|(Hk' & E)]]; rewrite E in *.
  - right. destruct Hc as [Hc|[P _]]; [lia|]. split; [exact P|]. right. lia.
  - right. destruct Hc as [Hc|[P _]]; [lia|]. split; [exact P|]. left. lia.
  - left. lia.
Qed.
Lemma even_pos d : (0 <= d < m_dim m)%Z -> 0 < h d.
Proof. intros Hd. rewrite <- (even_width d (pc p d) Hd ltac:(lia) ltac:(lia)). apply (EW_pos m D Hs); auto. apply cells_near; auto; lia. Qed.
Lemma even_span d : (0 <= d < m_dim m)%Z -> wid m f d (pc p d) = h d.
Proof.
  intros Hd. pose proof (Hpc d ltac:(lia)) as H1. destruct (Z.eq_dec f d) as [<-|Hne].
  - rewrite (own_span m D Hs f _ Hf H1), !even_width by (auto; lia). lra.
  - rewrite n_oth in H1 by (auto; lia). rewrite (other_span m D Hs) by auto. now rewrite even_width by (auto; lia).
Qed.
Lemma even_next d s : (0 <= d < m_dim m)%Z -> (s = 1 \/ s = -1)%Z -> crd m f d (pc p d + s) = sc s0 d + IZR s * h d.
Proof.
  intros Hd Hs1. unfold s0. rewrite sc_site by auto. pose proof (Hpc d ltac:(lia)) as H1. destruct (Z.eq_dec f d) as [<-|Hne].
  - rewrite !(own_place m D Hs) by (auto; lia). set (i := pc p f) in *. destruct Hs1 as [->| ->].
    + pose proof (EV_step m D Hs f (i + 1) Hf ltac:(apply cells_near; unfold i; auto; lia)) as S1. rewrite even_width in S1 by (unfold i; auto; lia). lra.
    + pose proof (EV_step m D Hs f i Hf ltac:(apply cells_near; unfold i; auto; lia)) as S1. rewrite even_width in S1 by (unfold i; auto; lia).
      replace (i + -1 + 1)%Z with i by lia. lra.
  - set (i := pc p d) in *.
    pose proof (EV_step m D Hs d i Hd ltac:(apply cells_near; unfold i; auto; lia)) as S0. rewrite even_width in S0 by (unfold i; auto; lia).
    rewrite !(other_place m D Hs) by (auto; apply cells_near; unfold i; auto; lia). destruct Hs1 as [->| ->].
    + pose proof (EV_step m D Hs d (i + 1) Hd ltac:(apply cells_near; unfold i; auto; lia)) as S1. rewrite even_width in S1 by (unfold i; auto; lia). lra.
    + pose proof (EV_step m D Hs d (i + -1) Hd ltac:(apply cells_near; unfold i; auto; lia)) as S1. rewrite even_width in S1 by (unfold i; auto; lia).
      replace (i + -1 + 1)%Z with i in * by lia. lra.
Qed.
Lemma radius_pos d : (0 <= d < m_dim m)%Z -> 0 <= h d.
Proof. intros Hd. left. now apply even_pos. Qed.

Context (B : boundary) (x : vec) (u : Z -> pt -> R) (v : Z -> spot -> R).
Context (HX : extends_box m D B x u) (Hx : velocity_of m D v x) (Hv : forall g, (0 <= g < m_dim m)%Z -> repeating m (v g)).

Lemma see_next d s : (0 <= d < m_dim m)%Z -> (s = 1 \/ s = -1)%Z -> u f (shift p d s) = v f (put s0 d (sc s0 d + IZR s * h d)).
Proof.
  intros Hd Hs1. rewrite (see m D Hs B x u v f _ HX Hx (Hv f Hf) Hf) by (apply next_to; auto; lia). rewrite site_shift by auto. now rewrite even_next.
Qed.
Lemma see_here : u f p = v f s0.
Proof. apply (see m D Hs B x u v f _ HX Hx (Hv f Hf) Hf). intros e He'. left. now apply Hpc. Qed.

Lemma laplacian_close der M : derivatives m (around m s0 h) 4 (v f) der ->
  (forall d s, (0 <= d < m_dim m)%Z -> around m s0 h s -> Rabs (der [d; d; d; d] s) <= M d) ->
  Rabs (laplacian_at m f u p - zsum (fun d => der [d; d] s0) 0 (m_dim m)) <= zsum (fun d => M d / 12 * h d ^ 2) 0 (m_dim m).
Proof.
  intros Hd4 HM. unfold laplacian_at. apply zsum_dist. intros d Hd. unfold second_difference.
  pose proof (even_pos d Hd) as P. pose proof (even_next d 1 Hd ltac:(auto)) as E1. pose proof (even_next d (-1) Hd ltac:(auto)) as E2.
  unfold s0 in E1, E2. rewrite sc_site in E1, E2 by auto.
  replace (pc p d - 1)%Z with (pc p d + -1)%Z by lia. rewrite E1, E2, even_span by auto.
  change (setc p d (pc p d + 1)) with (shift p d 1). change (setc p d (pc p d + -1)) with (shift p d (-1)).
  replace (setc p d (pc p d)) with p by (symmetry; apply pt_ext; intros e He'; rewrite pc_setc by lia; destruct (Z.eqb_spec e d) as [->|]; reflexivity).
  rewrite !see_next, see_here by auto.
  set (G := fun l t => der l (put s0 d t)). set (c := sc s0 d).
  assert (G0 : forall t, v f (put s0 d t) = G [] t) by (intros t; unfold G; symmetry; apply Hd4).
  assert (Gc : v f s0 = G [] c) by (unfold G, c; rewrite put_sc by lia; symmetry; apply Hd4).
  assert (G2 : der [d; d] s0 = G [d; d] c) by (unfold G, c; now rewrite put_sc by lia).
  rewrite !G0, Gc, G2. fold c.
  assert (L : forall l t, (length l < 4)%nat -> Forall (fun e => 0 <= e < m_dim m)%Z l -> Rabs (t - c) <= h d -> derivable_pt_lim (G l) t (G (d :: l) t)).
  { intros l t Hl Hfl Ht. unfold G. apply (on_line m Hdim s0 h 4 (v f) der l s0 d t Hd4 Hl Hfl Hd); [apply around_self; auto; apply radius_pos|exact Ht]. }
  pose proof (second (G []) (G [d]) (G [d; d]) (G [d; d; d]) (G [d; d; d; d]) c (h d) (M d) ltac:(lra)
    ltac:(intros; apply L; auto; simpl; lia) ltac:(intros; apply L; auto; simpl; lia) ltac:(intros; apply L; auto; simpl; lia) ltac:(intros; apply L; auto; simpl; lia)) as S2.
  specialize (S2 ltac:(intros t Ht; apply HM; auto; apply around_put; auto; apply around_self; auto; apply radius_pos)).
  replace (c + 1 * h d) with (c + h d) by lra. replace (c + -1 * h d) with (c - h d) by lra.
  assert (Ep : crd m f d (pc p d) + 1 * h d - crd m f d (pc p d) = h d) by lra. assert (Em : crd m f d (pc p d) - (crd m f d (pc p d) + -1 * h d) = h d) by lra. rewrite Ep, Em.
  replace (((G [] (c + h d) - G [] c) / h d - (G [] c - G [] (c - h d)) / h d) / h d) with ((G [] (c + h d) + G [] (c - h d) - 2 * G [] c) / h d ^ 2) by (field; lra).
  apply over_close; [apply pow_lt; lra|]. eapply Rle_trans; [exact S2|]. right. ring.
Qed.

(** ** Convection *)
Section Convection.
Context (dv : Z -> list Z -> spot -> R) (K H : R).
Context (Hdv : forall g, (0 <= g < m_dim m)%Z -> derivatives m (around m s0 h) 3 (v g) (dv g)).
Context (HK : forall g l s, (0 <= g < m_dim m)%Z -> (length l <= 3)%nat -> Forall (fun e => 0 <= e < m_dim m)%Z l -> around m s0 h s -> Rabs (dv g l s) <= K).
Context (HH : forall d, (0 <= d < m_dim m)%Z -> h d <= H).

Let A0 : around m s0 h s0 := around_self m s0 h radius_pos.
Let K0 : 0 <= K.
Proof. eapply Rle_trans; [apply (Rabs_pos (dv f [] s0))|]. apply HK; auto. Qed.
Lemma v_dv g s : (0 <= g < m_dim m)%Z -> v g s = dv g [] s.
Proof. intros Hg. symmetry. apply (Hdv g Hg). Qed.

(** Mean and difference along a line of the region. *)
Lemma line_mean g l s d r : (0 <= g < m_dim m)%Z -> (length l <= 1)%nat -> Forall (fun e => 0 <= e < m_dim m)%Z l -> (0 <= d < m_dim m)%Z -> around m s0 h s -> 0 <= r <= h d ->
  Rabs (dv g l (put s d (sc s0 d + r)) + dv g l (put s d (sc s0 d - r)) - 2 * dv g l (put s d (sc s0 d))) <= K * r ^ 2.
Proof.
  intros Hg Hl Hfl Hd Ha Hr. set (G := fun l t => dv g l (put s d t)). set (c := sc s0 d).
  assert (L : forall l t, (length l < 3)%nat -> Forall (fun e => 0 <= e < m_dim m)%Z l -> Rabs (t - c) <= r -> derivable_pt_lim (G l) t (G (d :: l) t)).
  { intros l' t Hl' Hfl' Ht. apply (on_line m Hdim s0 h 3 (v g) (dv g) l' s d t (Hdv g Hg) Hl' Hfl' Hd Ha). fold c. lra. }
  apply (mean (G l) (G (d :: l)) (G (d :: d :: l)) c r ltac:(lra)).
  - intros t Ht. apply L; auto; lia.
  - intros t Ht. apply L; auto; simpl; lia.
  - intros t Ht. apply HK; auto; [simpl; lia|]. apply around_put; auto. fold c. lra.
Qed.
Lemma line_diff g s d r : (0 <= g < m_dim m)%Z -> (0 <= d < m_dim m)%Z -> around m s0 h s -> 0 <= r <= h d ->
  Rabs (dv g [] (put s d (sc s0 d + r)) - dv g [] (put s d (sc s0 d - r)) - 2 * r * dv g [d] (put s d (sc s0 d))) <= K / 3 * r ^ 3.
Proof.
  intros Hg Hd Ha Hr. set (G := fun l t => dv g l (put s d t)). set (c := sc s0 d).
  assert (L : forall l t, (length l < 3)%nat -> Forall (fun e => 0 <= e < m_dim m)%Z l -> Rabs (t - c) <= r -> derivable_pt_lim (G l) t (G (d :: l) t)).
  { intros l' t Hl' Hfl' Ht. apply (on_line m Hdim s0 h 3 (v g) (dv g) l' s d t (Hdv g Hg) Hl' Hfl' Hd Ha). fold c. lra. }
  apply (central (G []) (G [d]) (G [d; d]) (G [d; d; d]) c r ltac:(lra)).
  - intros t Ht. apply L; auto; simpl; lia.
  - intros t Ht. apply L; auto; simpl; lia.
  - intros t Ht. apply L; auto; simpl; lia.
  - intros t Ht. apply HK; auto. apply around_put; auto. fold c. lra.
Qed.

(** The transported velocity: its difference and its mean along d. *)
Let up d := dv f [] (put s0 d (sc s0 d + h d)).
Let um d := dv f [] (put s0 d (sc s0 d - h d)).
Lemma transported_difference d : (0 <= d < m_dim m)%Z -> Rabs ((up d - um d) / (2 * h d) - dv f [d] s0) <= K * h d ^ 2 / 6.
Proof.
  intros Hd. pose proof (even_pos d Hd) as P. pose proof (line_diff f s0 d (h d) Hf Hd A0 ltac:(lra)) as X. rewrite put_sc in X by lia.
  apply over_close; [lra|]. eapply Rle_trans; [exact X|]. right. field.
Qed.
Lemma transported_mean d : (0 <= d < m_dim m)%Z -> Rabs ((up d + 2 * dv f [] s0 + um d) / 4 - dv f [] s0) <= K * h d ^ 2 / 4.
Proof.
  intros Hd. pose proof (even_pos d Hd) as P. pose proof (line_mean f [] s0 d (h d) Hf ltac:(simpl; lia) ltac:(constructor) Hd A0 ltac:(lra)) as X. rewrite put_sc in X by lia.
  apply over_close; [lra|]. eapply Rle_trans; [|eapply Rle_trans; [exact X|]]; [right; f_equal; unfold up, um; ring|right; field].
Qed.

(** The transporting velocity at the four corners around p. *)
Definition corner (d : Z) (a b : R) : R := dv d [] (put (put s0 f (sc s0 f + a * (h f / 2))) d (sc s0 d + b * (h d / 2))).
Lemma half_in d a : (0 <= d < m_dim m)%Z -> (a = 1 \/ a = -1) -> Rabs (sc s0 d + a * (h d / 2) - sc s0 d) <= h d.
Proof.
  intros Hd Ha. pose proof (even_pos d Hd). replace (sc s0 d + a * (h d / 2) - sc s0 d) with (a * (h d / 2)) by lra. rewrite Rabs_mult, (Rabs_pos_eq (h d / 2)) by lra.
  destruct Ha as [->| ->]; [rewrite Rabs_R1|rewrite Rabs_left by lra]; lra.
Qed.
Lemma corners_mean d : (0 <= d < m_dim m)%Z -> d <> f ->
  Rabs ((corner d 1 1 + corner d (-1) 1 + corner d 1 (-1) + corner d (-1) (-1)) / 4 - dv d [] s0) <= K * H ^ 2 / 4.
Proof.
  intros Hd Hne. pose proof (even_pos d Hd) as P. pose proof (even_pos f Hf) as Pf.
  pose proof (line_mean d [] s0 d (h d / 2) Hd ltac:(simpl; lia) ltac:(constructor) Hd A0 ltac:(lra)) as X. rewrite put_sc in X by lia.
  assert (Y : forall b, (b = 1 \/ b = -1) -> Rabs (corner d 1 b + corner d (-1) b - 2 * dv d [] (put s0 d (sc s0 d + b * (h d / 2)))) <= K * (h f / 2) ^ 2).
  { intros b Hb. pose proof (line_mean d [] (put s0 d (sc s0 d + b * (h d / 2))) f (h f / 2) Hd ltac:(simpl; lia) ltac:(constructor) Hf
      ltac:(apply around_put; auto; now apply half_in) ltac:(lra)) as Z. unfold corner.
    rewrite !(put_comm s0 d) in Z by lia. rewrite put_sc in Z by lia.
    replace (sc s0 f + 1 * (h f / 2)) with (sc s0 f + h f / 2) by lra. replace (sc s0 f + -1 * (h f / 2)) with (sc s0 f - h f / 2) by lra. exact Z. }
  pose proof (Y 1 ltac:(auto)) as Y1. pose proof (Y (-1) ltac:(auto)) as Y2.
  replace (sc s0 d + 1 * (h d / 2)) with (sc s0 d + h d / 2) in Y1 by lra. replace (sc s0 d + -1 * (h d / 2)) with (sc s0 d - h d / 2) in Y2 by lra.
  apply over_close; [lra|]. revert X Y1 Y2. generalize (corner d 1 1) (corner d (-1) 1) (corner d 1 (-1)) (corner d (-1) (-1)). intros c1 c2 c3 c4 X Y1 Y2.
  assert (Q : K * (h f / 2) ^ 2 + K * (h f / 2) ^ 2 + 2 * (K * (h d / 2) ^ 2) <= 4 * (K * H ^ 2 / 4)).
  { pose proof (HH d Hd). pose proof (HH f Hf). assert (h f ^ 2 <= H ^ 2) by (apply pow_incr; lra). assert (h d ^ 2 <= H ^ 2) by (apply pow_incr; lra). nra. }
  eapply Rle_trans; [|exact Q]. revert X Y1 Y2. generalize (dv d [] (put s0 d (sc s0 d + h d / 2))) (dv d [] (put s0 d (sc s0 d - h d / 2))) (dv d [] s0). intros e1 e2 e0 X Y1 Y2.
  replace (c1 + c2 + c3 + c4 - 4 * e0) with ((c1 + c2 - 2 * e1) + (c3 + c4 - 2 * e2) + 2 * (e1 + e2 - 2 * e0)) by ring.
  eapply Rle_trans; [apply Rabs_triang|]. apply Rplus_le_compat.
  - eapply Rle_trans; [apply Rabs_triang|]. lra.
  - rewrite Rabs_mult, (Rabs_pos_eq 2) by lra. lra.
Qed.
Lemma corners_difference d : (0 <= d < m_dim m)%Z -> d <> f ->
  Rabs ((corner d 1 1 + corner d (-1) 1 - (corner d 1 (-1) + corner d (-1) (-1))) / (2 * h d) - dv d [d] s0) <= K * H ^ 2 / 6.
Proof.
  intros Hd Hne. pose proof (even_pos d Hd) as P. pose proof (even_pos f Hf) as Pf.
  pose proof (line_mean d [d] s0 f (h f / 2) Hd ltac:(simpl; lia) ltac:(auto) Hf A0 ltac:(lra)) as X. rewrite put_sc in X by lia.
  assert (Y : forall a, (a = 1 \/ a = -1) -> Rabs (corner d a 1 - corner d a (-1) - h d * dv d [d] (put s0 f (sc s0 f + a * (h f / 2)))) <= K * h d ^ 3 / 24).
  { intros a Ha. pose proof (line_diff d (put s0 f (sc s0 f + a * (h f / 2))) d (h d / 2) Hd Hd
      ltac:(apply around_put; auto; now apply half_in) ltac:(lra)) as Z. unfold corner.
    rewrite (put_comm s0 f _ d (sc s0 d)) in Z by lia. rewrite put_sc in Z by lia.
    replace (sc s0 d + 1 * (h d / 2)) with (sc s0 d + h d / 2) by lra. replace (sc s0 d + -1 * (h d / 2)) with (sc s0 d - h d / 2) by lra.
    replace (2 * (h d / 2)) with (h d) in Z by lra. eapply Rle_trans; [exact Z|]. right. field. }
  pose proof (Y 1 ltac:(auto)) as Y1. pose proof (Y (-1) ltac:(auto)) as Y2.
  replace (sc s0 f + 1 * (h f / 2)) with (sc s0 f + h f / 2) in Y1 by lra. replace (sc s0 f + -1 * (h f / 2)) with (sc s0 f - h f / 2) in Y2 by lra.
  apply over_close; [lra|]. revert X Y1 Y2. generalize (corner d 1 1) (corner d (-1) 1) (corner d 1 (-1)) (corner d (-1) (-1)). intros c1 c2 c3 c4 X Y1 Y2.
  assert (Q : K * h d ^ 3 / 24 + K * h d ^ 3 / 24 + h d * (K * (h f / 2) ^ 2) <= 2 * h d * (K * H ^ 2 / 6)).
  { pose proof (HH d Hd). pose proof (HH f Hf). assert (h f ^ 2 <= H ^ 2) by (apply pow_incr; lra). assert (h d ^ 2 <= H ^ 2) by (apply pow_incr; lra).
    assert (0 <= h d * K) by (apply Rmult_le_pos; lra).
    replace (K * h d ^ 3 / 24 + K * h d ^ 3 / 24 + h d * (K * (h f / 2) ^ 2)) with ((h d * K) * (h d ^ 2 / 12 + h f ^ 2 / 4)) by field.
    replace (2 * h d * (K * H ^ 2 / 6)) with ((h d * K) * (H ^ 2 / 3)) by field. apply Rmult_le_compat_l; lra. }
  eapply Rle_trans; [|exact Q]. revert X Y1 Y2. generalize (dv d [d] (put s0 f (sc s0 f + h f / 2))) (dv d [d] (put s0 f (sc s0 f - h f / 2))) (dv d [d] s0). intros e1 e2 e0 X Y1 Y2.
  replace (c1 + c2 - (c3 + c4) - 2 * h d * e0) with ((c1 - c3 - h d * e1) + (c2 - c4 - h d * e2) + h d * (e1 + e2 - 2 * e0)) by ring.
  eapply Rle_trans; [apply Rabs_triang|]. apply Rplus_le_compat.
  - eapply Rle_trans; [apply Rabs_triang|]. lra.
  - rewrite Rabs_mult, (Rabs_pos_eq (h d)) by lra. apply Rmult_le_compat_l; lra.
Qed.

(** What the extended vector holds at the corners. *)
Lemma see_corner d a b : (0 <= d < m_dim m)%Z -> d <> f -> (a = 0 \/ a = 1)%Z -> (b = 0 \/ b = -1)%Z ->
  u d (shift (shift p d b) f a) = corner d (IZR (2 * a - 1)) (IZR (2 * b + 1)).
Proof.
  intros Hd Hne Ha Hb. pose proof (Hpc d ltac:(lia)) as Rd. pose proof (Hpc f ltac:(lia)) as Rf.
  assert (Hq : inside_or_around m d (shift (shift p d b) f a)).
  { intros e He'. rewrite !pc_shift by lia. destruct (Z.eqb_spec e f) as [->|N1].
    - replace (f =? d)%Z with false by lia. rewrite (n_oth d f) by lia. destruct (periodic_dir m f) eqn:P.
      + rewrite n_own, P in Rf by auto. right. split; [lia|split; [reflexivity|lia]].
      + pose proof (Hw f Hf P) as Hw1. rewrite n_own, P in Hw1 by auto. left. lia.
    - destruct (Z.eqb_spec e d) as [->|N2].
      + rewrite n_own by auto. rewrite n_oth in Rd by (auto; lia). destruct (periodic_dir m d) eqn:P; [right; split; [lia|split; [reflexivity|lia]]|].
        pose proof (Hw d Hd P) as Hw1. rewrite n_oth in Hw1 by (auto; lia). left. lia.
      + left. pose proof (Hpc e He') as Re. rewrite n_oth in * by (auto; lia). exact Re. }
  rewrite (see m D Hs B x u v d _ HX Hx (Hv d Hd) Hd Hq). rewrite v_dv by auto. unfold corner. f_equal. apply spot_ext. intros e He'.
  rewrite !sc_put by lia. destruct (Z_lt_dec e (m_dim m)) as [L|L].
  - rewrite !sc_site by (auto; lia). rewrite !pc_shift by lia. destruct (Z.eqb_spec e d) as [->|N2].
    + replace (d =? f)%Z with false by lia. unfold s0. rewrite sc_site by auto.
      assert (Ro : (-1 <= pc p d + b <= m_n m d d)%Z).
      { rewrite n_own by auto. rewrite n_oth in Rd by (auto; lia). destruct (periodic_dir m d) eqn:P; [lia|]. pose proof (Hw d Hd P) as Hw1. rewrite n_oth in Hw1 by (auto; lia). lia. }
      rewrite (own_place m D Hs d _ Hd Ro).
      rewrite (other_place m D Hs f d) by (auto; apply cells_near; auto; lia).
      pose proof (EV_step m D Hs d (pc p d) Hd ltac:(apply cells_near; auto; lia)) as S1. rewrite even_width in S1 by (auto; lia).
      destruct Hb as [->| ->]; [change (2 * 0 + 1)%Z with 1%Z|change (2 * -1 + 1)%Z with (-1)%Z]; [replace (pc p d + 0 + 1)%Z with (pc p d + 1)%Z by lia|replace (pc p d + -1 + 1)%Z with (pc p d) by lia]; lra.
    + destruct (Z.eqb_spec e f) as [->|N1].
      * replace (f =? d)%Z with false by lia. unfold s0. rewrite sc_site by auto. rewrite (own_place m D Hs f (pc p f) Hf) by lia.
        rewrite (other_place m D Hs d f) by (auto; apply cells_near; auto; lia).
        pose proof (EV_step m D Hs f (pc p f) Hf ltac:(apply cells_near; auto; lia)) as S0. pose proof (EV_step m D Hs f (pc p f + 1) Hf ltac:(apply cells_near; auto; lia)) as S1.
        rewrite even_width in S0, S1 by (auto; lia).
        destruct Ha as [->| ->]; [change (2 * 0 - 1)%Z with (-1)%Z; replace (pc p f + 0)%Z with (pc p f) by lia|change (2 * 1 - 1)%Z with 1%Z]; lra.
      * unfold s0. rewrite sc_site by (auto; lia). pose proof (Hpc e He') as Re. rewrite n_oth in Re by (auto; lia).
        rewrite !(other_place m D Hs) by (auto; try lia; left; lia). reflexivity.
  - assert (m_dim m = 2)%Z by lia. replace e with 2%Z by lia. replace (2 =? d)%Z with false by lia. replace (2 =? f)%Z with false by lia. unfold s0. now rewrite !sc_site_flat.
Qed.
Lemma shift_0 q d : (0 <= d < 3)%Z -> shift q d 0 = q.
Proof. intros Hd. apply pt_ext. intros e He'. rewrite pc_shift by lia. destruct (Z.eqb_spec e d) as [->|]; lia. Qed.

Lemma convection_close : Rabs (convection_at m u f p - zsum (fun d => dv d [d] s0 * v f s0 + v d s0 * dv f [d] s0) 0 (m_dim m))
  <= zsum (fun d => K ^ 2 * H ^ 2 * (5 / 6 + H ^ 2 / 12)) 0 (m_dim m).
Proof.
  unfold convection_at. apply zsum_dist. intros d Hd. pose proof (even_pos d Hd) as P. pose proof (HH d Hd) as HHd.
  rewrite even_span by auto. rewrite !v_dv by auto.
  pose proof (transported_difference d Hd) as T1. pose proof (transported_mean d Hd) as T2.
  assert (Hq : h d ^ 2 <= H ^ 2) by (apply pow_incr; lra). assert (H0 : 0 <= H ^ 2) by apply pow2_ge_0.
  assert (T1' : Rabs ((up d - um d) / (2 * h d) - dv f [d] s0) <= K * H ^ 2 / 6) by (eapply Rle_trans; [exact T1|]; nra).
  assert (T2' : Rabs ((up d + 2 * dv f [] s0 + um d) / 4 - dv f [] s0) <= K * H ^ 2 / 4) by (eapply Rle_trans; [exact T2|]; nra).
  assert (Bd : forall g l, (0 <= g < m_dim m)%Z -> (length l <= 3)%nat -> Forall (fun e => 0 <= e < m_dim m)%Z l -> Rabs (dv g l s0) <= K) by (intros; apply HK; auto).
  assert (Up : u f (shift p d 1) = up d) by (rewrite see_next by auto; rewrite v_dv by auto; unfold up; do 2 f_equal; lra).
  assert (Um : u f (shift p d (-1)) = um d) by (rewrite see_next by auto; rewrite v_dv by auto; unfold um; do 2 f_equal; lra).
  assert (Uc : u f p = dv f [] s0) by (rewrite see_here by auto; now apply v_dv).
  assert (Sb : shift (shift p d (-1)) d 1 = p).
  { apply pt_ext. intros e He'. rewrite !pc_shift by lia. destruct (Z.eqb_spec e d) as [->|]; [rewrite Z.eqb_refl; lia|reflexivity]. }
  unfold momentum_flux. destruct (Z.eq_dec d f) as [->|Hne].
  - rewrite Sb, Up, Um, Uc.
    pose proof (times_close _ _ _ _ _ _ K T1' T2' ltac:(apply Bd; simpl; auto) ltac:(apply Bd; simpl; auto)) as X.
    revert X. generalize (up f) (um f) (dv f [] s0) (dv f [f] s0). intros a b c c1 X.
    replace (((c + a) / 2 * ((c + a) / 2) - (b + c) / 2 * ((b + c) / 2)) / h f - (c1 * c + c * c1)) with (2 * ((a - b) / (2 * h f) * ((a + 2 * c + b) / 4) - c1 * c)) by (field; lra).
    rewrite Rabs_mult, (Rabs_pos_eq 2) by lra. apply (Rmult_le_compat_l 2) in X; [|lra]. eapply Rle_trans; [exact X|]. right. field.
  - rewrite Sb, Up, Um, Uc.
    pose proof (see_corner d 0 0 Hd Hne ltac:(auto) ltac:(auto)) as C1. pose proof (see_corner d 1 0 Hd Hne ltac:(auto) ltac:(auto)) as C2.
    pose proof (see_corner d 0 (-1) Hd Hne ltac:(auto) ltac:(auto)) as C3. pose proof (see_corner d 1 (-1) Hd Hne ltac:(auto) ltac:(auto)) as C4.
    rewrite (shift_0 _ f) in C1 by lia. rewrite (shift_0 _ f) in C3 by lia. rewrite (shift_0 p d) in C1 by lia. rewrite (shift_0 p d) in C2 by lia. change (2 * 0 - 1)%Z with (-1)%Z in *. change (2 * 0 + 1)%Z with 1%Z in *. change (2 * -1 + 1)%Z with (-1)%Z in *. change (2 * 1 - 1)%Z with 1%Z in *.
    rewrite C1, C2, C3, C4.
    pose proof (times_close _ _ _ _ _ _ K (corners_difference d Hd Hne) T2' ltac:(apply Bd; simpl; auto) ltac:(apply Bd; simpl; auto)) as X.
    pose proof (times_close _ _ _ _ _ _ K (corners_mean d Hd Hne) T1' ltac:(apply Bd; simpl; auto) ltac:(apply Bd; simpl; auto)) as Y.
    revert X Y. generalize (corner d 1 1) (corner d (-1) 1) (corner d 1 (-1)) (corner d (-1) (-1)) (up d) (um d) (dv f [] s0) (dv f [d] s0) (dv d [] s0) (dv d [d] s0).
    intros c1 c2 c3 c4 a b c e1 e2 e3 X Y.
    replace (((c2 + c1) / 2 * ((c + a) / 2) - (c4 + c3) / 2 * ((b + c) / 2)) / h d - (e3 * c + e2 * e1))
      with (((c1 + c2 - (c3 + c4)) / (2 * h d) * ((a + 2 * c + b) / 4) - e3 * c) + ((c1 + c2 + c3 + c4) / 4 * ((a - b) / (2 * h d)) - e2 * e1)) by (field; lra).
    eapply Rle_trans; [apply Rabs_triang|]. eapply Rle_trans; [apply Rplus_le_compat; [exact X|exact Y]|]. right. field.
Qed.
End Convection.
End At.
(** ** The divergence *)
Section Divergence.
Context (p : pt) (Hp : interior (m_n m 3) p) (Hw : off_walls m 3 p).
Context (B : boundary) (x : vec) (u : Z -> pt -> R) (v : Z -> spot -> R).
Context (HX : extends_box m D B x u) (Hx : velocity_of m D v x) (Hv : forall g, (0 <= g < m_dim m)%Z -> repeating m (v g)).
Let Hpc : forall d, (0 <= d < 3)%Z -> (0 <= pc p d < m_n m 3 d)%Z := proj1 (interior_pc _ _) Hp.
Let s0 := site m 3 p.
Let w d := wid m 3 d (pc p d).

Lemma w_pos d : (0 <= d < m_dim m)%Z -> 0 < w d.
Proof. intros Hd. apply (mf_pwid _ _ F); auto. apply Hpc. lia. Qed.
Lemma w_EW d : (0 <= d < m_dim m)%Z -> EW m d (pc p d) = w d.
Proof. intros Hd. unfold EW, w, wrap. pose proof (Hpc d ltac:(lia)). now rewrite Z.mod_small. Qed.
Lemma face_size f : (0 <= f < m_dim m)%Z -> face_area m false f p * w f = cell_size m p.
Proof.
  intros Hf. unfold face_area, cell_size.
  assert (O : forall d, (0 <= d < m_dim m)%Z -> f <> d -> wid m f d (pc p d) = w d) by (intros d Hd Hne; apply (mf_wid_oth _ _ F); auto; apply Hpc; lia).
  destruct Hdim as [E|E].
  - rewrite E in *. cbn [Z.eqb Pos.eqb]. assert (Fl : wid m f 2 (pc p 2) = 1).
    { destruct (mf_flat _ _ F f ltac:(left; lia) E) as (_ & _ & W). destruct (mf_flat _ _ F 3 ltac:(auto) E) as (N & _ & _).
      pose proof (Hpc 2%Z ltac:(lia)). replace (pc p 2) with 0%Z by lia. exact W. }
    assert (f = 0 \/ f = 1)%Z as [-> | ->] by lia; unfold perp0, perp1; cbn [Z.eqb Pos.eqb]; rewrite Fl; [rewrite (O 1%Z) by lia|rewrite (O 0%Z) by lia]; fold (w 0) (w 1); unfold w; ring.
  - rewrite E in *. cbn [Z.eqb Pos.eqb].
    assert (f = 0 \/ f = 1 \/ f = 2)%Z as [-> | [-> | ->]] by lia; unfold perp0, perp1; cbn [Z.eqb Pos.eqb]; [rewrite (O 1%Z), (O 2%Z) by lia|rewrite (O 0%Z), (O 2%Z) by lia|rewrite (O 0%Z), (O 1%Z) by lia]; unfold w; ring.
Qed.
Lemma see_face f a : (0 <= f < m_dim m)%Z -> (a = 0 \/ a = -1)%Z -> u f (shift p f a) = v f (put s0 f (sc s0 f + IZR (2 * a + 1) * (w f / 2))).
Proof.
  intros Hf Ha. pose proof (Hpc f ltac:(lia)) as Rf.
  assert (Ro : (-1 <= pc p f + a <= m_n m f f)%Z) by (rewrite n_own by auto; destruct (periodic_dir m f) eqn:P; [lia|]; pose proof (Hw f Hf P); lia).
  assert (Hq : inside_or_around m f (shift p f a)).
  { intros e He. rewrite pc_shift by lia. pose proof (Hpc e He) as Re. destruct (Z.eqb_spec e f) as [->|N1].
    - destruct (periodic_dir m f) eqn:P; [right; split; [lia|split; [reflexivity|lia]]|]. pose proof (Hw f Hf P). rewrite n_own, P by auto. left. lia.
    - left. rewrite n_oth by (auto; lia). exact Re. }
  rewrite (see m D Hs B x u v f _ HX Hx (Hv f Hf) Hf Hq). f_equal. apply spot_ext. intros e He. rewrite sc_put by lia.
  destruct (Z_lt_dec e (m_dim m)) as [L|L].
  - unfold s0. rewrite !sc_site by (auto; lia). rewrite pc_shift by lia. destruct (Z.eqb_spec e f) as [->|N1].
    + rewrite (own_place m D Hs f _ Hf Ro), (cell_place m D Hs f _ Hf Rf).
      pose proof (EV_step m D Hs f (pc p f) Hf ltac:(left; lia)) as S1. rewrite w_EW in S1 by auto.
      destruct Ha as [->| ->]; [change (2 * 0 + 1)%Z with 1%Z; replace (pc p f + 0 + 1)%Z with (pc p f + 1)%Z by lia|change (2 * -1 + 1)%Z with (-1)%Z; replace (pc p f + -1 + 1)%Z with (pc p f) by lia]; lra.
    + pose proof (Hpc e He) as Re. rewrite (other_place m D Hs f e) by (auto; try lia; left; lia). now rewrite (cell_place m D Hs e) by (auto; lia).
  - assert (m_dim m = 2)%Z by lia. replace e with 2%Z by lia. replace (2 =? f)%Z with false by lia. unfold s0. now rewrite !sc_site_flat.
Qed.

Lemma divergence_close dv M : (forall f, (0 <= f < m_dim m)%Z -> derivatives m (around m s0 (fun d => w d / 2)) 3 (v f) (dv f)) ->
  (forall f s, (0 <= f < m_dim m)%Z -> around m s0 (fun d => w d / 2) s -> Rabs (dv f [f; f; f] s) <= M f) ->
  Rabs (net_flux m false u p / cell_size m p - zsum (fun f => dv f [f] s0) 0 (m_dim m)) <= zsum (fun f => M f / 24 * w f ^ 2) 0 (m_dim m).
Proof.
  intros Hd3 HM.
  assert (Rp : forall d, (0 <= d < m_dim m)%Z -> 0 <= w d / 2) by (intros d Hd; pose proof (w_pos d Hd); lra).
  assert (A0 : around m s0 (fun d => w d / 2) s0) by (apply around_self; exact Rp).
  assert (Sz : cell_size m p <> 0).
  { rewrite <- (face_size 0 ltac:(lia)). apply Rmult_integral_contrapositive_currified; [|pose proof (w_pos 0 ltac:(lia)); lra].
    unfold face_area. apply Rmult_integral_contrapositive_currified.
    - rewrite (mf_wid_oth _ _ F) by (unfold perp0; cbn; try lia; apply Hpc; lia). pose proof (w_pos 1 ltac:(lia)). unfold perp0. cbn. unfold w in *. lra.
    - unfold perp1. cbn [Z.eqb]. destruct Hdim as [E|E].
      + destruct (mf_flat _ _ F 0 ltac:(left; lia) E) as (_ & _ & W). destruct (mf_flat _ _ F 3 ltac:(auto) E) as (N & _ & _).
        pose proof (Hpc 2%Z ltac:(lia)). replace (pc p 2) with 0%Z by lia. rewrite W. lra.
      + rewrite (mf_wid_oth _ _ F) by (try lia; apply Hpc; lia). pose proof (w_pos 2 ltac:(lia)). unfold w in *. lra. }
  assert (E : net_flux m false u p / cell_size m p = zsum (fun f => (u f p - u f (shift p f (-1))) / w f) 0 (m_dim m)).
  { unfold net_flux, zsum, Rdiv. rewrite Rmult_comm, <- sumR_scal. apply sumR_ext. intros f Hf. apply zrange_In in Hf.
    pose proof (w_pos f Hf). rewrite <- (face_size f Hf) in *. field. split; [lra|]. intros Z. apply Sz. rewrite Z. lra. }
  rewrite E. apply zsum_dist. intros f Hf. pose proof (w_pos f Hf) as P.
  replace (u f p) with (u f (shift p f 0)) by (now rewrite shift_0 by lia). rewrite !see_face by auto.
  change (2 * 0 + 1)%Z with 1%Z. change (2 * -1 + 1)%Z with (-1)%Z.
  replace (sc s0 f + 1 * (w f / 2)) with (sc s0 f + w f / 2) by lra. replace (sc s0 f + -1 * (w f / 2)) with (sc s0 f - w f / 2) by lra.
  set (G := fun l t => dv f l (put s0 f t)). set (c := sc s0 f).
  assert (G0 : forall t, v f (put s0 f t) = G [] t) by (intros t; unfold G; symmetry; apply (Hd3 f Hf)).
  assert (G1 : dv f [f] s0 = G [f] c) by (unfold G, c; now rewrite put_sc by lia). rewrite !G0, G1.
  assert (L : forall l t, (length l < 3)%nat -> Forall (fun e => 0 <= e < m_dim m)%Z l -> Rabs (t - c) <= w f / 2 -> derivable_pt_lim (G l) t (G (f :: l) t)).
  { intros l t Hl Hfl Ht. apply (on_line m Hdim s0 (fun d => w d / 2) 3 (v f) (dv f) l s0 f t (Hd3 f Hf) Hl Hfl Hf A0 Ht). }
  pose proof (central (G []) (G [f]) (G [f; f]) (G [f; f; f]) c (w f / 2) ltac:(lra) ltac:(intros; apply L; auto; simpl; lia) (M f)
    ltac:(intros; apply L; auto; simpl; lia) ltac:(intros; apply L; auto; simpl; lia)) as X.
  specialize (X ltac:(intros t Ht; apply HM; auto; apply around_put; auto)).
  apply over_close; [exact P|]. replace (2 * (w f / 2)) with (w f) in X by lra. eapply Rle_trans; [exact X|]. right. field.
Qed.
End Divergence.

(** ** The gradient *)
Section Gradient.
Context (f : Z) (Hf : (0 <= f < m_dim m)%Z) (p : pt) (Hp : interior (m_n m f) p) (q : spot -> R) (P : pt -> R).
Context (Hq : repeating m q) (HP : forall c, interior (m_n m 3) c -> P c = q (site m 3 c)).
Let Hpc : forall d, (0 <= d < 3)%Z -> (0 <= pc p d < m_n m f d)%Z := proj1 (interior_pc _ _) Hp.
Let s0 := site m f p.
Let a := EW m f (pc p f).
Let b := EW m f (pc p f + 1).

Lemma here_cell k : (k = 0 \/ k = 1)%Z -> at_cell m f (pc p f + k).
Proof.
  intros Hk. pose proof (Hpc f ltac:(lia)) as R1. rewrite n_own in R1 by auto. unfold at_cell. destruct (periodic_dir m f); [right; split; [reflexivity|lia]|left; lia].
Qed.
Lemma a_pos : 0 < a.
Proof. apply (EW_pos m D Hs); auto. replace (pc p f) with (pc p f + 0)%Z by lia. apply here_cell. auto. Qed.
Lemma b_pos : 0 < b.
Proof. apply (EW_pos m D Hs); auto. apply here_cell. auto. Qed.
Lemma cell_in k : (k = 0 \/ k = 1)%Z -> interior (m_n m 3) (image (m_n m 3) (shift p f k)).
Proof. intros Hk. apply IndexProof.image_interior; eapply sizes_pos; eauto; lia. Qed.
Lemma see_cell k : (k = 0 \/ k = 1)%Z -> P (image (m_n m 3) (shift p f k)) = q (put s0 f ((EV m f (pc p f + k) + EV m f (pc p f + k + 1)) / 2)).
Proof.
  intros Hk. rewrite HP by now apply cell_in. symmetry. apply (repeat_turned m D Hs q); [exact Hq|]. intros e He. rewrite sc_put by lia.
  pose proof (Hpc e He) as Re. destruct (Z_lt_dec e (m_dim m)) as [L|L].
  - unfold s0. rewrite !sc_site by (auto; lia). rewrite pc_image, pc_shift by lia.
    pose proof (n3_pos m D Hs e ltac:(lia)) as N. assert (Wr : forall i, (0 <= wrap (m_n m 3 e) i < m_n m 3 e)%Z) by (intros; unfold wrap; apply Z.mod_pos_bound; lia).
    rewrite (cell_place m D Hs) by (auto; lia). destruct (Z.eqb_spec e f) as [->|N1].
    + destruct (here_cell k Hk) as [C|[C1 C2]].
      * left. unfold wrap. now rewrite Z.mod_small.
      * right. split; [lia|]. split; [exact C1|]. destruct (EV_period m D Hs f (pc p f + k) Hf C1 C2) as (j & Hj & E0 & E1). exists j. split; [exact Hj|]. rewrite E0, E1. lra.
    + left. rewrite n_oth in Re by (auto; lia). unfold wrap. rewrite Z.mod_small by lia. rewrite (other_place m D Hs f e) by (auto; try lia; left; lia). reflexivity.
  - left. assert (m_dim m = 2)%Z by lia. replace e with 2%Z by lia. replace (2 =? f)%Z with false by lia. unfold s0. now rewrite !sc_site_flat.
Qed.

Lemma gradient_close der M : derivatives m (around m s0 (fun d => if (d =? f)%Z then Rmax a b / 2 else 0)) 3 q der ->
  (forall s, around m s0 (fun d => if (d =? f)%Z then Rmax a b / 2 else 0) s -> Rabs (der [f; f; f] s) <= M) ->
  Rabs (gradient_at m false P f p - der [f] s0) <= Rabs (der [f; f] s0) * Rabs (b - a) / 4 + M / 24 * (a ^ 2 - a * b + b ^ 2).
Proof.
  intros Hd3 HM. pose proof a_pos as Pa. pose proof b_pos as Pb. pose proof (Rmax_l a b) as Ml. pose proof (Rmax_r a b) as Mr.
  set (r := fun d => if (d =? f)%Z then Rmax a b / 2 else 0) in *.
  assert (Rp : forall d, (0 <= d < m_dim m)%Z -> 0 <= r d) by (intros d Hd; unfold r; destruct (d =? f)%Z; lra).
  assert (A0 : around m s0 r s0) by (apply around_self; exact Rp).
  unfold gradient_at. pose proof (Hpc f ltac:(lia)) as R1. rewrite (own_span m D Hs f _ Hf R1). fold a b.
  assert (I0 : image (m_n m 3) (shift p f 0) = p).
  { apply pt_ext. intros e He. rewrite pc_image, pc_shift by lia. pose proof (Hpc e He) as Re. unfold wrap. destruct (Z.eqb_spec e f) as [->|N1].
    - rewrite Z.add_0_r. apply Z.mod_small. rewrite n_own in Re by auto. destruct (periodic_dir m f); lia.
    - apply Z.mod_small. rewrite n_oth in Re by (auto; lia). exact Re. }
  rewrite <- I0 at 2. rewrite !see_cell by auto.
  set (c := sc s0 f). assert (Ec : c = EV m f (pc p f + 1)) by (unfold c, s0; rewrite sc_site by auto; apply (own_place m D Hs); auto; lia).
  pose proof (EV_step m D Hs f (pc p f) Hf ltac:(replace (pc p f) with (pc p f + 0)%Z by lia; apply here_cell; auto)) as S0. fold a in S0.
  pose proof (EV_step m D Hs f (pc p f + 1) Hf ltac:(apply here_cell; auto)) as S1. fold b in S1.
  replace ((EV m f (pc p f + 1) + EV m f (pc p f + 1 + 1)) / 2) with (c + b / 2) by lra.
  replace ((EV m f (pc p f + 0) + EV m f (pc p f + 0 + 1)) / 2) with (c - a / 2) by (rewrite !Z.add_0_r; lra).
  set (G := fun l t => der l (put s0 f t)).
  assert (G0 : forall t, q (put s0 f t) = G [] t) by (intros t; unfold G; symmetry; apply Hd3).
  assert (G1 : forall l, der l s0 = G l c) by (intros l; unfold G, c; now rewrite put_sc by lia). rewrite !G0, !G1.
  assert (Rg : forall t, c - a / 2 <= t <= c + b / 2 -> Rabs (t - c) <= r f) by (intros t Ht; unfold r; rewrite Z.eqb_refl; apply Rabs_le; lra).
  assert (L : forall l t, (length l < 3)%nat -> Forall (fun e => 0 <= e < m_dim m)%Z l -> c - a / 2 <= t <= c + b / 2 -> derivable_pt_lim (G l) t (G (f :: l) t)).
  { intros l t Hl Hfl Ht. apply (on_line m Hdim s0 r 3 q der l s0 f t Hd3 Hl Hfl Hf A0). now apply Rg. }
  pose proof (uneven (G []) (G [f]) (G [f; f]) (G [f; f; f]) c (a / 2) (b / 2) M ltac:(lra) ltac:(lra) ltac:(intros; apply L; auto; simpl; lia)
    ltac:(intros; apply L; auto; simpl; lia) ltac:(intros; apply L; auto; simpl; lia)) as X.
  specialize (X ltac:(intros t Ht; apply HM; apply around_put; auto; now apply Rg)).
  apply over_close; [lra|]. revert X. generalize (G [] (c + b / 2)) (G [] (c - a / 2)) (G [f] c) (G [f; f] c). intros u1 u2 g1 g2 X.
  replace (u1 - u2 - (a + b) / 2 * g1) with ((u1 - u2 - (a / 2 + b / 2) * g1 - ((b / 2) ^ 2 - (a / 2) ^ 2) / 2 * g2) + ((a + b) / 2) * ((b - a) / 4 * g2)) by field.
  eapply Rle_trans; [apply Rabs_triang|]. rewrite Rabs_mult, (Rabs_pos_eq ((a + b) / 2)) by lra. rewrite (Rabs_mult ((b - a) / 4)).
  replace (Rabs ((b - a) / 4)) with (Rabs (b - a) / 4) by (unfold Rdiv at 2; rewrite Rabs_mult, (Rabs_pos_eq (/ 4)) by lra; reflexivity).
  assert (Y : M / 6 * ((a / 2) ^ 3 + (b / 2) ^ 3) = (a + b) / 2 * (M / 24 * (a ^ 2 - a * b + b ^ 2))) by field. rewrite Y in X.
  replace ((a + b) / 2 * (Rabs g2 * Rabs (b - a) / 4 + M / 24 * (a ^ 2 - a * b + b ^ 2))) with ((a + b) / 2 * (M / 24 * (a ^ 2 - a * b + b ^ 2)) + (a + b) / 2 * (Rabs (b - a) / 4 * Rabs g2)) by field.
  lra.
Qed.
End Gradient.
End Accuracy.
