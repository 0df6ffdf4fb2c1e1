(** Vorticity: sizes, bounds, values. *)
From Coq Require Import String Permutation ZifyBool.
From Verif Require Import Prelude ZSum RSum TypesModel GridModel GridSpec GridProof MeshProof
  IndexModel IndexSpec IndexProof BoundaryModel BoundarySpec BoundaryProof OperatorModel OperatorSpec OperatorProof BStateProof GradProof
  MatModel AdjProof NSModel NameModel DriverModel ConvModel ConvSpec ConvProof ConvValue VortModel VortSpec.
Local Open Scope R_scope.

(** * Sizes *)
Lemma vertex_facts m D : mesh_setup m D -> forall d, (0 <= d < m_dim m)%Z ->
  m_n m 4 d = (m_n m 3 d + 1)%Z /\ forall i, (0 <= i <= m_n m 3 d)%Z -> m_coord m 4 d i = Ok (crd m 4 d i).
Proof.
  intros (mn & mx & per & w & np & Hg & Hm & Hper & Hnp & Hnp2 & HD) d Hd.
  destruct (mesh_vertex _ _ _ _ _ _ Hm d Hd) as (A & B & _). destruct (mesh_pressure _ _ _ _ _ _ Hm d Hd) as (A' & _).
  split; [lia|]. intros i Hi. unfold crd. rewrite B by lia. reflexivity.
Qed.
Lemma flat_vertex m D : mesh_setup m D -> m_dim m = 2%Z -> m_n m 3 2 = 1%Z /\ m_coord m 3 2 0 = Ok 0.
Proof.
  intros (mn & mx & per & w & np & Hg & Hm & Hper & Hnp & Hnp2 & HD) E.
  unfold m_n, m_coord. rewrite (createMesh_fd _ _ _ _ _ _ 3 2 Hm). unfold mesh_fd. rewrite E. cbn. split; reflexivity.
Qed.

Definition ok_comp (m : mesh) (k : Z) : Prop := (0 <= k < n_vort (m_dim m))%Z.
Lemma vort_n_sizes m D k d : mesh_setup m D -> ok_comp m k -> (0 <= d < 3)%Z ->
  vort_n m k d = vort_sizes m (vort_dir (m_dim m) k) d.
Proof.
  intros Hs Hk Hd. pose proof (mf_dim _ _ (setup_facts _ _ Hs)) as Hdim. pose proof (vertex_facts _ _ Hs) as V.
  unfold ok_comp, n_vort, vort_n, vort_sizes, vort_dir, vort_src in *.
  destruct Hdim as [E|E]; rewrite E in *; cbn [Z.eqb Pos.eqb] in *.
  - destruct (pt_cases d Hd) as [->|[->| ->]]; cbn [Z.eqb Pos.eqb]; try reflexivity; apply V; lia.
  - assert (k = 0 \/ k = 1 \/ k = 2)%Z as [->|[->| ->]] by lia;
      destruct (pt_cases d Hd) as [->|[->| ->]]; cbn [Z.eqb Pos.eqb]; try reflexivity; apply V; lia.
Qed.
Lemma dir_range m D k : mesh_setup m D -> ok_comp m k -> (0 <= vort_dir (m_dim m) k < 3)%Z.
Proof.
  intros Hs Hk. pose proof (mf_dim _ _ (setup_facts _ _ Hs)) as Hdim. unfold ok_comp, n_vort, vort_dir in *.
  destruct Hdim as [E|E]; rewrite E in *; cbn [Z.eqb Pos.eqb] in *; lia.
Qed.
Lemma sizes_range m D a d : mesh_setup m D -> (0 <= d < 3)%Z -> (m_n m 3 d <= vort_sizes m a d <= m_n m 3 d + 1)%Z.
Proof. intros Hs Hd. unfold vort_sizes. destruct (d =? a)%Z; lia. Qed.

Lemma vort_dmdas_ok m D : mesh_setup m D -> vort_dmdas m D = Ok (default_dec (ds_np D) (vort_n m)).
Proof.
  intros Hs. pose proof (setup_facts _ _ Hs) as F. unfold vort_dmdas.
  replace (forallb _ _) with true; [reflexivity|]. symmetry. apply forallb_forall. intros c Hc. apply zrange_In in Hc.
  apply forallb_forall. intros d Hd. apply zrange_In in Hd. pose proof (mf_dim _ _ F).
  rewrite (vort_n_sizes m D c d Hs Hc) by lia. pose proof (sizes_range m D (vort_dir (m_dim m) c) d Hs ltac:(lia)).
  pose proof (mf_np _ _ F 3%Z d (or_intror eq_refl) ltac:(lia)). lia.
Qed.
Definition vdec (m : mesh) (D : dec) : dec := default_dec (ds_np D) (vort_n m).
Lemma vdec_ok m D k : mesh_setup m D -> ok_comp m k -> dec_ok (vdec m D) (vort_n m k) k.
Proof.
  intros Hs Hk. pose proof (setup_facts _ _ Hs) as F. apply default_dec_ok.
  - intros d Hd. pose proof (mf_np _ _ F 3%Z d (or_intror eq_refl) Hd). lia.
  - intros d Hd. rewrite (vort_n_sizes m D k d Hs Hk Hd). pose proof (sizes_range m D (vort_dir (m_dim m) k) d Hs Hd).
    pose proof (sizes_pos m D 3 d F (or_intror eq_refl) Hd). lia.
Qed.
Lemma vdec_ranks m D : nranks (vdec m D) = nranks D.
Proof. reflexivity. Qed.
Lemma vort_point_interior m D k p : mesh_setup m D -> ok_comp m k ->
  (interior (vort_n m k) p <-> vort_point m (vort_dir (m_dim m) k) p).
Proof.
  intros Hs Hk. rewrite interior_pc. unfold vort_point. split; intros H d Hd; specialize (H d Hd);
    rewrite (vort_n_sizes m D k d Hs Hk Hd) in *; exact H.
Qed.

(** * Bounds *)
Lemma split_next2 M M' p q : (1 <= p)%Z -> (0 <= M)%Z -> (M <= M' <= M + 2)%Z -> (0 <= q <= p)%Z ->
  (isum (dmda_l M p) 0 q <= isum (dmda_l M' p) 0 q <= isum (dmda_l M p) 0 q + (M' - M))%Z.
Proof.
  intros Hp HM HM' Hq. assert (M' = M \/ M' = M + 1 \/ M' = M + 1 + 1)%Z as [->|[->| ->]] by lia.
  - lia.
  - pose proof (split_next M p q Hp HM Hq). lia.
  - pose proof (split_next M p q Hp HM Hq). pose proof (split_next (M + 1) p q Hp ltac:(lia) Hq). lia.
Qed.
Lemma vbox_next m D k f e r : mesh_setup m D -> ok_comp m k -> (0 <= f < m_dim m)%Z -> (0 <= e < 3)%Z -> (0 <= r < nranks D)%Z ->
  (m_n m f e <= vort_n m k e <= m_n m f e + 2)%Z ->
  (d_bg D f e r <= d_bg (vdec m D) k e r /\ d_ed (vdec m D) k e r <= d_ed D f e r + (vort_n m k e - m_n m f e))%Z.
Proof.
  intros Hs Hk Hf He Hr Hn. pose proof (setup_facts _ _ Hs) as F.
  assert (Hnp : forall e, (0 <= e < 3)%Z -> (1 <= ds_np D e)%Z) by (intros e0 He0; pose proof (mf_np _ _ F f e0 (or_introl Hf) He0); lia).
  pose proof (rcoord_range D e r Hnp He Hr) as Hc. pose proof (mf_np _ _ F f e (or_introl Hf) He) as Nf.
  assert (EB : forall q, (0 <= q <= ds_np D e)%Z -> isum (ds_l D f e) 0 q = isum (dmda_l (m_n m f e) (ds_np D e)) 0 q).
  { intros q Hq. apply isum_ext. intros i Hi. apply (mf_split _ _ F); auto. }
  assert (Ed : forall G g, d_ed G g e r = isum (ds_l G g e) 0 (rcoord G e r + 1) \/ (rcoord G e r < 0)%Z).
  { intros G g. destruct (Z.ltb_spec (rcoord G e r) 0); [now right|left]. unfold d_ed, d_bg, d_m. rewrite isum_snoc by lia. reflexivity. }
  change (rcoord (vdec m D) e r) with (rcoord D e r) in *. split.
  - unfold d_bg. rewrite EB by lia. change (rcoord (vdec m D) e r) with (rcoord D e r).
    change (ds_l (vdec m D) k e) with (dmda_l (vort_n m k e) (ds_np D e)).
    destruct (split_next2 (m_n m f e) (vort_n m k e) (ds_np D e) (rcoord D e r)); auto; lia.
  - destruct (Ed D f) as [E1|]; [|lia]. destruct (Ed (vdec m D) k) as [E2|E2]; [|change (rcoord (vdec m D) e r) with (rcoord D e r) in E2; lia].
    rewrite E1, E2. change (rcoord (vdec m D) e r) with (rcoord D e r). rewrite EB by lia.
    change (ds_l (vdec m D) k e) with (dmda_l (vort_n m k e) (ds_np D e)).
    destruct (split_next2 (m_n m f e) (vort_n m k e) (ds_np D e) (rcoord D e r + 1)); auto; lia.
Qed.

(** The point whose circulation the program stores at p. *)
Definition moved (m : mesh) (a : Z) (p : pt) : pt := if ((m_dim m =? 3) && negb (a =? 2))%Z then shift p a (-1) else p.
(** The velocities it reads. *)
Definition vreads (a : Z) (p : pt) : list (Z * pt) :=
  let b := next_dir a in let c := next_dir b in
  [(c, shift p c (-1)); (c, shift (shift p c (-1)) b (-1)); (b, shift p b (-1)); (b, shift (shift p b (-1)) c (-1))].

Lemma next_cases a : (0 <= a < 3)%Z -> (0 <= next_dir a < 3 /\ next_dir a <> a /\ next_dir (next_dir a) <> a /\ next_dir (next_dir a) <> next_dir a
   /\ 0 <= next_dir (next_dir a) < 3 /\ forall d, 0 <= d < 3 -> d = a \/ d = next_dir a \/ d = next_dir (next_dir a))%Z.
Proof. intros H. destruct (pt_cases a H) as [->|[->| ->]]; cbn; repeat split; try lia; intros; lia. Qed.

Lemma vreads_in_box m D k r p g q : mesh_setup m D -> ok_comp m k -> (0 <= r < nranks D)%Z ->
  In p (local_points (vdec m D) k r) -> In (g, q) (vreads (vort_dir (m_dim m) k) (moved m (vort_dir (m_dim m) k) p)) ->
  (0 <= g < m_dim m)%Z /\ In q (ghosted_points (m_dim m) D g r).
Proof.
  intros Hs Hk Hr Hp Hin. pose proof (setup_facts _ _ Hs) as F. pose proof (mf_dim _ _ F) as Hdim.
  pose proof (dir_range m D k Hs Hk) as Ha. set (a := vort_dir (m_dim m) k) in *.
  destruct (next_cases a Ha) as (Hb & Nb & Nc & Ncb & Hc & Hall). set (b := next_dir a) in *. set (c := next_dir b) in *.
  assert (Hbc : (b < m_dim m /\ c < m_dim m)%Z).
  { unfold ok_comp, n_vort in Hk. subst a. unfold vort_dir in *. destruct Hdim as [E|E]; rewrite E in *; cbn [Z.eqb Pos.eqb] in *; [|lia].
    subst b c. cbn. lia. }
  rewrite local_points_pc in Hp.
  assert (Key : forall f q, (f = b \/ f = c) -> (forall e, (0 <= e < 3)%Z ->
      (e = a -> pc q e = pc (moved m a p) e) /\ (e = f -> pc q e = pc p e - 1) /\ (e <> a -> e <> f -> pc p e - 1 <= pc q e <= pc p e))%Z ->
      In q (ghosted_points (m_dim m) D f r)).
  { intros f q0 Hf Hq. assert (Hfd : (0 <= f < m_dim m)%Z) by (destruct Hf; subst f; lia).
    apply ghosted_points_pc; auto. intros e He. specialize (Hq e He). destruct Hq as (Q1 & Q2 & Q3). specialize (Hp e He).
    pose proof (vort_n_sizes m D k e Hs Hk He) as Hn. fold a in Hn. unfold vort_sizes in Hn.
    destruct (Z.eq_dec e f) as [->|Hef].
    - replace (f <? m_dim m)%Z with true by lia. rewrite (Q2 eq_refl).
      assert (Hfa : f <> a) by (destruct Hf; subst f; auto). replace (f =? a)%Z with false in Hn by lia.
      pose proof (mf_n_own _ _ F f Hfd) as No.
      destruct (vbox_next m D k f f r Hs Hk Hfd He Hr) as [A B]; [destruct (periodic_dir m f); lia|].
      destruct (periodic_dir m f); lia.
    - pose proof (mf_n_oth _ _ F f e Hfd He ltac:(congruence)) as No.
      destruct (vbox_next m D k f e r Hs Hk Hfd He Hr) as [A B]; [destruct (e =? a)%Z; lia|].
      destruct (Z.eq_dec e a) as [->|Hea].
      + rewrite Z.eqb_refl in Hn. rewrite (Q1 eq_refl). unfold moved. destruct (Z.ltb_spec a (m_dim m)).
        * destruct ((m_dim m =? 3) && negb (a =? 2))%Z; [rewrite pc_shift2 by auto; rewrite Z.eqb_refl|]; lia.
        * replace (m_dim m =? 3)%Z with false by lia. cbn [andb]. lia.
      + replace (e =? a)%Z with false in Hn by lia. specialize (Q3 Hea Hef).
        replace (e <? m_dim m)%Z with true by (destruct (Hall e He) as [->|[->| ->]]; [congruence|lia|lia]). lia. }
  assert (Mv : forall e, (0 <= e < 3)%Z -> e <> a -> pc (moved m a p) e = pc p e).
  { intros e He Hne. unfold moved. destruct ((m_dim m =? 3) && negb (a =? 2))%Z; auto. rewrite pc_shift2 by auto. now replace (e =? a)%Z with false by lia. }
  unfold vreads in Hin. fold b c in Hin. cbn [In] in Hin.
  destruct Hin as [E|[E|[E|[E|[]]]]]; injection E as <- <-; (split; [lia|]);
    (apply Key; [auto|]); intros e He; rewrite ?pc_shift2 by auto; destruct (Z.eqb_spec e b), (Z.eqb_spec e c); subst;
    repeat split; intros; try congruence; try lia; try (rewrite Mv by auto; lia).
Qed.

(** * Values *)
Lemma coords_ok m D f d i : mesh_setup m D -> (0 <= f < m_dim m)%Z -> (0 <= d < m_dim m)%Z -> f <> d -> (-1 <= i <= m_n m 3 d)%Z ->
  m_coord m f d i = Ok (crd m f d i).
Proof. intros Hs Hf Hd Hne Hi. pose proof (setup_facts _ _ Hs) as F. apply (mf_coord _ _ F); auto. rewrite (mf_n_oth _ _ F f d) by (auto; pose proof (mf_dim _ _ F); lia). lia. Qed.

Lemma vkernel_value m D k p (q : flux) (w : Z -> pt -> R) : mesh_setup m D -> ok_comp m k ->
  vort_point m (vort_dir (m_dim m) k) p ->
  (forall g i j l, In (g, (i, j, l)) (vreads (vort_dir (m_dim m) k) (moved m (vort_dir (m_dim m) k) p)) -> q g i j l = Ok (w g (i, j, l))) ->
  (let '(i, j, l) := p in vort_kernel m k q i j l) = Ok (curl m w (vort_dir (m_dim m) k) (moved m (vort_dir (m_dim m) k) p)).
Proof.
  intros Hs Hk Hp Hq. pose proof (setup_facts _ _ Hs) as F. pose proof (mf_dim _ _ F) as Hdim. destruct p as [[i j] l].
  unfold ok_comp, n_vort in Hk.
  assert (Hcr : forall f d x, (0 <= f < m_dim m)%Z -> (0 <= d < m_dim m)%Z -> f <> d -> d <> vort_dir (m_dim m) k ->
     (x = pc (i, j, l) d \/ x = pc (i, j, l) d - 1)%Z -> m_coord m f d x = Ok (crd m f d x)).
  { intros f d x Hf Hd Hne Hda Hx. apply (coords_ok m D); auto. specialize (Hp d ltac:(lia)). replace (d =? vort_dir (m_dim m) k)%Z with false in Hp by lia. lia. }
  unfold vort_kernel, curl, vreads, moved, vort_dir, at_ in *. destruct Hdim as [E|E]; rewrite E in *; cbn [Z.eqb Pos.eqb negb andb] in *.
  - unfold next_dir in *. cbn [Z.eqb Pos.eqb] in *. change (0 + 1)%Z with 1%Z in *. cbn [Z.eqb Pos.eqb] in *.
    unfold vort2z, at_. unfold shift, setc, pc in *. cbn [Z.eqb Pos.eqb] in *. change (-1)%Z with (-(1))%Z in *. rewrite !Z.add_opp_r in *.
    rewrite (Hq 1%Z i (j - 1)%Z l), (Hq 1%Z (i - 1)%Z (j - 1)%Z l), (Hq 0%Z (i - 1)%Z j l), (Hq 0%Z (i - 1)%Z (j - 1)%Z l) by (cbn [In]; auto).
    cbn [bind]. rewrite !Hcr by (cbn [Z.eqb Pos.eqb]; auto; lia). cbn [bind]. reflexivity.
  - assert (k = 0 \/ k = 1 \/ k = 2)%Z as [->|[->| ->]] by lia; cbn [Z.eqb Pos.eqb negb] in *.
    + unfold next_dir in *. cbn [Z.eqb Pos.eqb] in *. change (0 + 1)%Z with 1%Z in *. cbn [Z.eqb Pos.eqb] in *. change (1 + 1)%Z with 2%Z in *.
      unfold vort3x, at_. unfold shift, setc, pc in *. cbn [Z.eqb Pos.eqb] in *. change (-1)%Z with (-(1))%Z in *. rewrite !Z.add_opp_r in *.
      rewrite (Hq 2%Z (i - 1)%Z j (l - 1)%Z), (Hq 2%Z (i - 1)%Z (j - 1)%Z (l - 1)%Z), (Hq 1%Z (i - 1)%Z (j - 1)%Z l), (Hq 1%Z (i - 1)%Z (j - 1)%Z (l - 1)%Z)
        by (cbn [In]; auto).
      cbn [bind]. rewrite !Hcr by (cbn [Z.eqb Pos.eqb]; auto; lia). cbn [bind]. reflexivity.
    + unfold next_dir in *. cbn [Z.eqb Pos.eqb] in *. change (1 + 1)%Z with 2%Z in *. cbn [Z.eqb Pos.eqb] in *.
      unfold vort3y, at_. unfold shift, setc, pc in *. cbn [Z.eqb Pos.eqb] in *. change (-1)%Z with (-(1))%Z in *. rewrite !Z.add_opp_r in *.
      rewrite (Hq 0%Z (i - 1)%Z (j - 1)%Z l), (Hq 0%Z (i - 1)%Z (j - 1)%Z (l - 1)%Z), (Hq 2%Z i (j - 1)%Z (l - 1)%Z), (Hq 2%Z (i - 1)%Z (j - 1)%Z (l - 1)%Z)
        by (cbn [In]; auto).
      cbn [bind]. rewrite !Hcr by (cbn [Z.eqb Pos.eqb]; auto; lia). cbn [bind]. reflexivity.
    + unfold next_dir in *. cbn [Z.eqb Pos.eqb] in *. change (0 + 1)%Z with 1%Z in *. cbn [Z.eqb Pos.eqb] in *.
      unfold vort3z, at_. unfold shift, setc, pc in *. cbn [Z.eqb Pos.eqb] in *. change (-1)%Z with (-(1))%Z in *. rewrite !Z.add_opp_r in *.
      rewrite (Hq 1%Z i (j - 1)%Z l), (Hq 1%Z (i - 1)%Z (j - 1)%Z l), (Hq 0%Z (i - 1)%Z j l), (Hq 0%Z (i - 1)%Z (j - 1)%Z l) by (cbn [In]; auto).
      cbn [bind]. rewrite !Hcr by (cbn [Z.eqb Pos.eqb]; auto; lia). cbn [bind]. reflexivity.
Qed.
