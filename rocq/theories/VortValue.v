(** Vorticity: what the stored values are. *)
From Coq Require Import String Permutation ZifyBool.
From Verif Require Import Prelude ZSum RSum TypesModel GridModel GridSpec GridProof MeshProof
  IndexModel IndexSpec IndexProof BoundaryModel BoundarySpec BoundaryProof OperatorModel OperatorSpec OperatorProof BStateProof GradProof
  MatModel AdjProof NSModel NSProof NameModel NameProof DriverModel DriverSpec DriverProof RestartProof ConvModel ConvSpec ConvProof ConvValue ConvTotal
  VortModel VortSpec VortProof VortFile.
Local Open Scope R_scope.

Lemma curl_ext m w w' a p : (forall g q, In (g, q) (vreads a p) -> w g q = w' g q) -> curl m w a p = curl m w' a p.
Proof.
  intros H. unfold curl, vreads in *. cbv zeta in *. rewrite !H by (cbn [In]; auto). reflexivity.
Qed.

(** ** In terms of what each rank knows *)
Lemma stored_view m D types values h B x u k p v : mesh_setup m D -> bc_fits m types -> boundary_after m D types values h B ->
  extends_box m D B x u -> ok_comp m k -> vstored m D types values h x k p v ->
  exists r, (0 <= r < nranks D)%Z /\ In p (local_points (vdec m D) k r) /\
    v = curl m (rank_view m D r u) (vort_dir (m_dim m) k) (moved m (vort_dir (m_dim m) k) p).
Proof.
  intros Hs Hb HB HX Hk (r & Hr & Hp & ->). pose proof (setup_facts _ _ Hs) as F. exists r. split; [exact Hr|]. split; [exact Hp|].
  apply curl_ext. intros g q Hq. destruct (vreads_in_box m D k r p g q Hs Hk Hr Hp Hq) as [Hg Hin].
  eapply rval_view; eauto. eapply ghosted_frame; eauto.
Qed.

(** ** Inner vertices *)
Lemma vreads_pc a p g q d : (0 <= a < 3)%Z -> (0 <= d < 3)%Z -> In (g, q) (vreads a p) ->
  g <> a /\ (d = a -> pc q d = pc p d) /\ (d = g -> pc q d = pc p d - 1)%Z /\ (d <> a -> d <> g -> pc p d - 1 <= pc q d <= pc p d)%Z.
Proof.
  intros Ha Hd Hin. destruct (next_cases a Ha) as (Hb & Nb & Nc & Ncb & Hc & Hall). unfold vreads in Hin.
  set (b := next_dir a) in *. set (c := next_dir b) in *. cbn [In] in Hin.
  destruct Hin as [E|[E|[E|[E|[]]]]]; injection E as <- <-; rewrite ?pc_shift2 by auto;
    destruct (Z.eqb_spec d b), (Z.eqb_spec d c); repeat split; intros; try congruence; lia.
Qed.
Lemma inner_image m D a q g x : mesh_setup m D -> (0 <= a < 3)%Z -> (a < 2 -> m_dim m = 3)%Z -> In (g, x) (vreads a q) -> (0 <= g < m_dim m)%Z ->
  (periodic_dir m a = true /\ (a < m_dim m)%Z \/ (0 <= pc q a < m_n m 3 a)%Z) ->
  (forall d, (0 <= d < m_dim m)%Z -> d <> a -> periodic_dir m d = true \/ (1 <= pc q d <= m_n m 3 d - 1)%Z) ->
  has_image (m_n m g) (periodic_dir m) x = true.
Proof.
  intros Hs Ha Ha2 Hin Hg Hca Hoth. pose proof (setup_facts _ _ Hs) as F. pose proof (mf_dim _ _ F) as Hdim.
  apply has_image_pc. intros d Hd Ho. destruct (vreads_pc a q g x d Ha Hd Hin) as (Nga & Q1 & Q2 & Q3). unfold outside in Ho.
  destruct (Z.eq_dec d a) as [->|Hda].
  - destruct Hca as [[H _]|H]; [exact H|]. rewrite (mf_n_oth _ _ F g a) in Ho by auto. rewrite (Q1 eq_refl) in Ho. lia.
  - assert (Hdd : (0 <= d < m_dim m)%Z). { split; [lia|]. destruct Hdim as [E|E]; [|lia]. assert (a = 2)%Z by lia. lia. }
    destruct (Hoth d Hdd Hda) as [H|H]; [exact H|]. exfalso. destruct (Z.eq_dec d g) as [->|Hdg].
    + rewrite (Q2 eq_refl), (mf_n_own _ _ F g Hg) in Ho. destruct (periodic_dir m g); lia.
    + specialize (Q3 Hda Hdg). rewrite (mf_n_oth _ _ F g d) in Ho by auto. lia.
Qed.
Lemma in_file_fun m F f p v v' : in_file m F f p v -> in_file m F f p v' -> v = v'.
Proof. intros (l & A & B) (l' & A' & B'). congruence. Qed.

Definition may_move (m : mesh) (a : Z) (p : pt) : Prop :=
  moved m a p = p \/ periodic_dir m a = true \/ (1 <= pc p a)%Z.
Lemma stored_inner m D types values h x F u k p v : mesh_setup m D -> ok_comp m k ->
  (forall i f y, nthZ (packed_layout (m_dim m) D) i = Some (f, y) -> in_file m F f y (x i)) ->
  stored_velocity m F u -> inner_vertex m (vort_dir (m_dim m) k) p -> may_move m (vort_dir (m_dim m) k) p ->
  vstored m D types values h x k p v -> v = curl m u (vort_dir (m_dim m) k) (moved m (vort_dir (m_dim m) k) p).
Proof.
  intros Hs Hk HU HX (Hp & Hin) Hmv (r & Hr & Hl & ->). pose proof (setup_facts _ _ Hs) as Fa. pose proof (mf_dim _ _ Fa) as Hdim.
  unfold vval. apply curl_ext. intros g q Hq. destruct (vreads_in_box m D k r p g q Hs Hk Hr Hl Hq) as [Hg Hgh].
  destruct (ghosted_frame m D g r q Fa Hg Hr Hgh) as [Hfr _].
  pose proof (dir_range m D k Hs Hk) as Ha. set (a := vort_dir (m_dim m) k) in *.
  assert (Ha2 : (a < 2 -> m_dim m = 3)%Z). { unfold a, vort_dir, ok_comp, n_vort in *. destruct Hdim as [E|E]; rewrite E in *; cbn [Z.eqb Pos.eqb] in *; lia. }
  assert (Mo : forall d, (0 <= d < 3)%Z -> d <> a -> pc (moved m a p) d = pc p d).
  { intros d Hd Hne. unfold moved. destruct (_ && _); [|reflexivity]. rewrite pc_shift2 by auto. now replace (d =? a)%Z with false by lia. }
  assert (Hi : has_image (m_n m g) (periodic_dir m) q = true).
  { apply (inner_image m D a (moved m a p)); auto.
    - specialize (Hp a Ha). rewrite Z.eqb_refl in Hp. destruct Hmv as [E|[E|E]].
      + right. rewrite E. exact Hp.
      + destruct (Z.eq_dec (m_dim m) 2) as [E2|]; [|left; split; [exact E|lia]]. right. unfold moved. rewrite E2. cbn [Z.eqb Pos.eqb andb]. exact Hp.
      + right. unfold moved. destruct (_ && _); [rewrite pc_shift2, Z.eqb_refl by auto|]; lia.
    - intros d Hd Hda. rewrite Mo by lia. now apply Hin. }
  unfold rval. rewrite Hi. eapply in_file_fun; [|apply HX; eauto]. apply HU. eapply idx_spec; eauto. eapply image_in; eauto.
Qed.

(** ** Walls, for the component normal to the (x, y) plane *)
Lemma moved_z m p : moved m 2 p = p.
Proof. unfold moved. rewrite Z.eqb_refl. cbn [negb]. now rewrite andb_false_r. Qed.
Lemma wall_known m D k r p g q d : mesh_setup m D -> ok_comp m k -> (0 <= r < nranks D)%Z -> vort_dir (m_dim m) k = 2%Z ->
  In p (local_points (vdec m D) k r) -> wall_vertex m D 2 d p -> In (g, q) (vreads 2 p) -> known m D r g q = true.
Proof.
  intros Hs Hk Hr Ek Hl (Hp & Hd & Hd2 & Hper & Hend & Hoth) Hin. pose proof (setup_facts _ _ Hs) as F. pose proof (mf_dim _ _ F) as Hdim.
  destruct (vreads_in_box m D k r p g q Hs Hk Hr Hl) as [Hg Hgh]. { rewrite Ek, moved_z. exact Hin. }
  assert (Hg2 : g <> 2%Z) by (destruct (vreads_pc 2 p g q 0 ltac:(lia) ltac:(lia) Hin); auto).
  assert (P : forall e, (0 <= e < 3)%Z -> _) by exact (fun e He => vreads_pc 2 p g q e ltac:(lia) He Hin).
  rewrite local_points_pc in Hl. assert (Hd3 : (0 <= d < 3)%Z) by lia.
  assert (Vn : forall e, (0 <= e < 3)%Z -> vort_n m k e = if (e =? 2)%Z then m_n m 3 e else (m_n m 3 e + 1)%Z).
  { intros e He. rewrite (vort_n_sizes m D k e Hs Hk He), Ek. reflexivity. }
  assert (Nx : forall e, (0 <= e < 3)%Z -> (d_bg D g e r <= d_bg (vdec m D) k e r /\ d_ed (vdec m D) k e r <= d_ed D g e r + (vort_n m k e - m_n m g e))%Z).
  { intros e He. apply vbox_next; auto. rewrite Vn by auto. destruct (Z.eq_dec e g) as [->|].
    - replace (g =? 2)%Z with false by lia. rewrite (mf_n_own _ _ F g Hg). destruct (periodic_dir m g); lia.
    - rewrite (mf_n_oth _ _ F g e) by auto. destruct (e =? 2)%Z; lia. }
  pose proof (slab_nonempty m D g d r F (or_introl Hg) Hd3 Hr) as Hne. change (d_ed D g d r) with (d_bg D g d r + d_m D g d r)%Z in *.
  assert (Hbox : (0 <= d_bg D g d r)%Z /\ (d_ed D g d r <= m_n m g d)%Z) by (destruct (d_range D (m_n m g) g d r (mf_dec _ _ F g (or_introl Hg)) Hd3 Hr); lia).
  assert (Ng : m_n m g d = if (g =? d)%Z then (m_n m 3 d - 1)%Z else m_n m 3 d).
  { destruct (Z.eqb_spec g d) as [->|]; [rewrite (mf_n_own _ _ F d Hd), Hper; reflexivity|apply (mf_n_oth _ _ F); auto]. }
  (* the other coordinates are owned *)
  assert (Oe : forall e, (0 <= e < 3)%Z -> e <> d -> (d_bg D g e r <= pc q e < d_ed D g e r)%Z).
  { intros e He Hed. destruct (P e He) as (_ & Q1 & Q2 & Q3). destruct (Nx e He) as [A B]. specialize (Hl e He). rewrite (Vn e He) in B.
    destruct (Z.eq_dec e 2) as [->|He2].
    - rewrite (Q1 eq_refl). rewrite (mf_n_oth _ _ F g 2) in B by auto. cbn [Z.eqb Pos.eqb] in B. lia.
    - destruct (Hoth e ltac:(lia) Hed He2) as [N1 R1]. destruct (whole_dir m D g e r F (or_introl Hg) He Hr N1) as [W1 W2]. rewrite W1, W2.
      destruct (Z.eq_dec e g) as [->|Heg].
      + rewrite (Q2 eq_refl), (mf_n_own _ _ F g Hg). destruct (periodic_dir m g); lia.
      + specialize (Q3 He2 Heg). rewrite (mf_n_oth _ _ F g e) by auto. lia. }
  destruct (P d Hd3) as (_ & Q1 & Q2 & Q3). destruct (Nx d Hd3) as [A B]. pose proof (Hl d Hd3) as Hld. rewrite (Vn d Hd3) in B. replace (d =? 2)%Z with false in B by lia.
  unfold d_ed in *.
  destruct (Z.leb_spec 0 (pc q d)) as [L|L]; [destruct (Z.ltb_spec (pc q d) (m_n m g d)) as [U|U]|].
  - (* inside *)
    apply known_inside. intros e He. right. destruct (Z.eq_dec e d) as [->|Hed]; [lia|]. specialize (Oe e He Hed).
    destruct (d_range D (m_n m g) g e r (mf_dec _ _ F g (or_introl Hg)) He Hr) as [X Y]. unfold d_ed in *. lia.
  - (* above *)
    destruct (high_loc d ltac:(lia)) as [L1 L2].
    assert (Eq : pc q d = m_n m g d). { destruct (Z.eqb_spec g d) as [->|Hgd]; [rewrite (Q2 eq_refl) in *|specialize (Q3 Hd2 ltac:(auto))]; lia. }
    apply (known_ghost m D r g q (2 * d + 1)); [lia|rewrite L1; exact Hper| |].
    + rewrite L1. unfold ghost_layer. rewrite L2, ?L1. cbn [Z.eqb]. exact Eq.
    + apply local_points_pc. intros e He. unfold inner_of. rewrite L1. rewrite pc_setc by auto. destruct (Z.eqb_spec e d) as [->|Hed]; [|now apply Oe].
      unfold inner_layer. rewrite L2, ?L1. cbn [Z.eqb]. unfold d_ed. destruct (Z.eqb_spec g d) as [E|E]; [specialize (Q2 ltac:(auto))|specialize (Q3 Hd2 ltac:(auto))]; lia.
  - (* below *)
    destruct (low_loc d ltac:(lia)) as [L1 L2].
    assert (Eq : pc q d = (-1)%Z). { destruct (Z.eqb_spec g d) as [->|Hgd]; [rewrite (Q2 eq_refl) in *|specialize (Q3 Hd2 ltac:(auto))]; lia. }
    apply (known_ghost m D r g q (2 * d)); [lia|rewrite L1; exact Hper| |].
    + rewrite L1. unfold ghost_layer. rewrite L2, ?L1. cbn [Z.eqb]. exact Eq.
    + apply local_points_pc. intros e He. unfold inner_of. rewrite L1. rewrite pc_setc by auto. destruct (Z.eqb_spec e d) as [->|Hed]; [|now apply Oe].
      unfold inner_layer. rewrite L2, ?L1. cbn [Z.eqb]. unfold d_ed. destruct (Z.eqb_spec g d) as [E|E]; [specialize (Q2 ltac:(auto))|specialize (Q3 Hd2 ltac:(auto))]; lia.
Qed.
