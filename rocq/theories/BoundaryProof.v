From Coq Require Import Permutation ZifyBool.
From Verif Require Import Prelude ZSum RSum TypesModel GridModel GridSpec GridProof MeshProof
  IndexModel IndexSpec IndexProof BoundaryModel BoundarySpec.
Local Open Scope R_scope.

(** * Facts about a mesh *)
Record mfacts (m : mesh) (D : dec) : Prop := {
  mf_dim : (m_dim m = 2 \/ m_dim m = 3)%Z;
  mf_sizes : forall f, (0 <= f < m_dim m \/ f = 3)%Z -> sizes_ok (m_dim m) (m_n m f);
  mf_dec : forall f, (0 <= f < m_dim m \/ f = 3)%Z -> dec_ok D (m_n m f) f;
  mf_coord : forall f d i, (0 <= f < m_dim m)%Z -> (0 <= d < m_dim m)%Z -> (-1 <= i <= m_n m f d)%Z ->
     m_coord m f d i = Ok (crd m f d i);
  mf_wid : forall f d i, (0 <= f < m_dim m)%Z -> (0 <= d < m_dim m)%Z -> (-1 <= i <= m_n m f d)%Z ->
     m_dL m f d i = Ok (wid m f d i) /\ 0 < wid m f d i;
  mf_incr : forall f d i j, (0 <= f < m_dim m)%Z -> (0 <= d < m_dim m)%Z ->
     (-1 <= i)%Z -> (i < j)%Z -> (j <= m_n m f d)%Z -> crd m f d i < crd m f d j;
  mf_flat : forall f, (0 <= f < m_dim m \/ f = 3)%Z -> m_dim m = 2%Z ->
     m_n m f 2 = 1%Z /\ m_dL m f 2 0 = Ok 1 /\ wid m f 2 0 = 1;
  mf_pcoord : forall d i, (0 <= d < m_dim m)%Z -> (0 <= i < m_n m 3 d)%Z ->
     m_coord m 3 d i = Ok (crd m 3 d i);
  mf_pwid : forall d i, (0 <= d < m_dim m)%Z -> (0 <= i < m_n m 3 d)%Z ->
     m_dL m 3 d i = Ok (wid m 3 d i) /\ 0 < wid m 3 d i;
  mf_n_own : forall f, (0 <= f < m_dim m)%Z ->
     m_n m f f = (if periodic_dir m f then m_n m 3 f else m_n m 3 f - 1)%Z;
  mf_n_oth : forall f d, (0 <= f < m_dim m)%Z -> (0 <= d < 3)%Z -> f <> d -> m_n m f d = m_n m 3 d;
  mf_wid_oth : forall f d i, (0 <= f < m_dim m)%Z -> (0 <= d < m_dim m)%Z -> f <> d ->
     (0 <= i < m_n m 3 d)%Z -> wid m f d i = wid m 3 d i;
  mf_split : forall f d q, (0 <= f < m_dim m \/ f = 3)%Z -> (0 <= d < 3)%Z ->
     ds_l D f d q = dmda_l (m_n m f d) (ds_np D d) q;
  mf_np : forall f d, (0 <= f < m_dim m \/ f = 3)%Z -> (0 <= d < 3)%Z -> (1 <= ds_np D d <= m_n m f d)%Z
}.

Lemma createDMDAs_inv dim np n D : createDMDAs dim np n = Ok D ->
  D = default_dec np n /\
  forall f d, (0 <= f < dim \/ f = 3)%Z -> (0 <= d < dim)%Z -> (np d <= n f d)%Z.
Proof.
  unfold createDMDAs. destruct (forallb _ _) eqn:E; [|discriminate]. intros H. injection H as <-. split; [reflexivity|].
  intros f d Hf Hd. rewrite forallb_forall in E.
  assert (In f (3%Z :: zrange 0 dim)) as Hin.
  { destruct Hf as [Hf| ->]; [right; now apply zrange_In|left; reflexivity]. }
  specialize (E f Hin). rewrite forallb_forall in E. specialize (E d ltac:(now apply zrange_In)). lia.
Qed.

Lemma setup_facts m D : mesh_setup m D -> mfacts m D.
Proof.
  intros (mn & mx & per & w & np & Hg & Hm & Hper & Hnp & Hnp2 & HD).
  destruct (createDMDAs_inv _ _ _ _ HD) as [-> Hle].
  pose proof (createMesh_misc _ _ _ _ _ _ Hm) as (_ & _ & _ & Hpe).
  assert (Hdim : (m_dim m = 2 \/ m_dim m = 3)%Z) by (destruct Hg; auto).
  assert (Hfd2 : forall f d, (0 <= f < m_dim m \/ f = 3)%Z -> (m_dim m <= d)%Z -> m_fd m f d = fdir_default).
  { intros f d Hf Hd. rewrite (createMesh_fd _ _ _ _ _ _ f d Hm). unfold mesh_fd.
    destruct (Z.ltb_spec d (m_dim m)); [lia|]. reflexivity. }
  assert (Hn2 : forall f d, (0 <= f < m_dim m \/ f = 3)%Z -> (m_dim m <= d)%Z -> m_n m f d = 1%Z).
  { intros. unfold m_n. rewrite Hfd2 by auto. reflexivity. }
  assert (Hpos : forall f d, (0 <= f < m_dim m \/ f = 3)%Z -> (0 <= d < 3)%Z -> (1 <= np d <= m_n m f d)%Z).
  { intros f d Hf Hd. specialize (Hnp d Hd). destruct (Z_lt_dec d (m_dim m)) as [H|H].
    - specialize (Hle f d Hf ltac:(lia)). lia.
    - rewrite Hn2 by (auto; lia). destruct Hdim as [E|E]; [|lia]. assert (d = 2)%Z by lia. subst. rewrite Hnp2; auto. lia. }
  constructor.
  - exact Hdim.
  - intros f Hf. split; [exact Hdim|]. pose proof (Hpos f 0%Z Hf ltac:(lia)). pose proof (Hpos f 1%Z Hf ltac:(lia)).
    pose proof (Hpos f 2%Z Hf ltac:(lia)). repeat split; try lia. intros E. apply Hn2; auto. lia.
  - intros f Hf. apply default_dec_ok; auto. intros d Hd. specialize (Hpos f d Hf Hd). lia.
  - intros f d i Hf Hd Hi. destruct (widths_positive_statement _ _ _ _ _ _ Hg Hm f d i Hf Hd Hi) as [[x Ex] _].
    unfold crd. rewrite Ex. reflexivity.
  - intros f d i Hf Hd Hi. destruct (widths_positive_statement _ _ _ _ _ _ Hg Hm f d i Hf Hd Hi) as [_ (x & Ex & Px)].
    unfold wid. rewrite Ex. simpl. auto.
  - intros f d i j Hf Hd Hi Hij Hj.
    destruct (widths_positive_statement _ _ _ _ _ _ Hg Hm f d i Hf Hd ltac:(lia)) as [[x Ex] _].
    destruct (widths_positive_statement _ _ _ _ _ _ Hg Hm f d j Hf Hd ltac:(lia)) as [[y Ey] _].
    unfold crd. rewrite Ex, Ey. simpl. eapply (increasing_statement _ _ _ _ _ _ Hg Hm f d i j); eauto.
  - intros f Hf E. split; [apply Hn2; auto; lia|]. unfold wid, m_dL. rewrite Hfd2 by (auto; lia). split; reflexivity.
  - intros d i Hd Hi. destruct (mesh_pressure _ _ _ _ _ _ Hm d Hd) as (A & B & _). rewrite A in Hi.
    unfold crd. destruct (B i Hi) as [E _]. rewrite E. reflexivity.
  - intros d i Hd Hi. destruct (mesh_pressure _ _ _ _ _ _ Hm d Hd) as (A & B & _). rewrite A in Hi.
    unfold wid. destruct (B i Hi) as [_ E]. rewrite E. simpl. split; [reflexivity|].
    destruct (vertex_statement _ _ _ _ _ _ Hg Hm d Hd) as (_ & _ & _ & V & I).
    pose proof (V i ltac:(lia)) as V1. pose proof (V (i + 1)%Z ltac:(lia)) as V2.
    pose proof (I i (i + 1)%Z _ _ ltac:(lia) V1 V2). lra.
  - intros f Hf. destruct (mesh_pressure _ _ _ _ _ _ Hm f Hf) as (A & _). rewrite A.
    destruct (mesh_velocity _ _ _ _ _ _ Hg Hm f f Hf Hf) as (B & _). rewrite B.
    unfold vn, own_n, periodic_dir. rewrite Z.eqb_refl, Hpe. rewrite (Hper f f) by auto. reflexivity.
  - intros f d Hf Hd Hne. destruct (Z_lt_dec d (m_dim m)) as [H|H].
    + destruct (mesh_pressure _ _ _ _ _ _ Hm d ltac:(lia)) as (A & _). rewrite A.
      destruct (mesh_velocity _ _ _ _ _ _ Hg Hm f d Hf ltac:(lia)) as (B & _). rewrite B. unfold vn.
      destruct (Z.eqb_spec f d); [lia|reflexivity].
    + rewrite !Hn2 by (auto; lia). reflexivity.
  - intros f d i Hf Hd Hne Hi. destruct (mesh_pressure _ _ _ _ _ _ Hm d Hd) as (A & _). rewrite A in Hi.
    destruct (periodic_other_statement _ _ _ _ _ _ Hg Hm f d i Hf Hd Hne Hi) as [_ E]. unfold wid. now rewrite E.
  - reflexivity.
  - exact Hpos.
Qed.

(** * Points *)
Lemma pt_cases (d : Z) : (0 <= d < 3)%Z -> d = 0%Z \/ d = 1%Z \/ d = 2%Z.
Proof. lia. Qed.

Lemma interior_pc n p : interior n p <-> forall d, (0 <= d < 3)%Z -> (0 <= pc p d < n d)%Z.
Proof.
  destruct p as [[i j] k]. unfold interior, pc. split.
  - intros (A & B & C) d Hd. destruct (pt_cases d Hd) as [->|[->| ->]]; simpl; auto.
  - intros H. pose proof (H 0%Z ltac:(lia)). pose proof (H 1%Z ltac:(lia)). pose proof (H 2%Z ltac:(lia)). simpl in *. auto.
Qed.

Lemma pc_setc p d x e : (0 <= d < 3)%Z -> (0 <= e < 3)%Z -> pc (setc p d x) e = if (e =? d)%Z then x else pc p e.
Proof.
  destruct p as [[i j] k]. intros Hd He.
  destruct (pt_cases d Hd) as [->|[->| ->]], (pt_cases e He) as [->|[->| ->]]; reflexivity.
Qed.

Lemma pc_shift p d s e : (0 <= d < 3)%Z -> (0 <= e < 3)%Z ->
  pc (shift p d s) e = if (e =? d)%Z then (pc p d + s)%Z else pc p e.
Proof. intros. unfold shift. now apply pc_setc. Qed.

Lemma pt_ext (p q : pt) : (forall d, (0 <= d < 3)%Z -> pc p d = pc q d) -> p = q.
Proof.
  destruct p as [[i j] k], q as [[i' j'] k']. intros H.
  pose proof (H 0%Z ltac:(lia)). pose proof (H 1%Z ltac:(lia)). pose proof (H 2%Z ltac:(lia)). simpl in *. congruence.
Qed.

Lemma st_of_inj p q : st_of p = st_of q -> p = q.
Proof. destruct p as [[i j] k], q as [[i' j'] k']. simpl. intros E. injection E as -> -> ->. reflexivity. Qed.

Lemma stencil_eqb_spec a b : stencil_eqb a b = true <-> a = b.
Proof. rewrite stencil_eq. unfold stencil_eqb. lia. Qed.

Lemma gidx_st m D f p : gidx m D f (st_of p) =
  let '(i, j, k) := p in getPackedGlobalIndex true (m_dim m) (m_n m) (m_periodic m 0%Z) D f i j k.
Proof. destruct p as [[i j] k]. reflexivity. Qed.

(** * Maps *)
Lemma mput_fresh {T} (l : list (stencil * T)) k v : ~ In k (map fst l) -> mput l k v = l ++ [(k, v)].
Proof.
  induction l as [|[k' v'] t IH]; simpl; intros H; [reflexivity|].
  destruct (stencil_eqb k' k) eqn:E; [apply stencil_eqb_spec in E; subst; tauto|]. rewrite IH by tauto. reflexivity.
Qed.

Lemma mget_In {T} (l : list (stencil * T)) k v : NoDup (map fst l) -> In (k, v) l -> mget l k = Some v.
Proof.
  induction l as [|[k' v'] t IH]; simpl; intros Hnd Hin; [contradiction|]. inversion Hnd; subst.
  destruct (stencil_eqb k' k) eqn:E.
  - apply stencil_eqb_spec in E. subst. destruct Hin as [Hin|Hin]; [congruence|].
    exfalso. apply H1. apply in_map_iff. exists (k, v). auto.
  - destruct Hin as [Hin|Hin]; [injection Hin as -> ->|auto].
    assert (stencil_eqb k k = true) by (now apply stencil_eqb_spec). congruence.
Qed.

Lemma mget_None {T} (l : list (stencil * T)) k : ~ In k (map fst l) -> mget l k = None.
Proof.
  induction l as [|[k' v'] t IH]; simpl; intros H; [reflexivity|].
  destruct (stencil_eqb k' k) eqn:E; [apply stencil_eqb_spec in E; subst; tauto|]. apply IH. tauto.
Qed.

Lemma foldM_mput {A T} (f : list (stencil * T) -> A -> res (list (stencil * T))) (key : A -> stencil) (val : A -> T) l :
  (forall pts a, In a l -> f pts a = Ok (mput pts (key a) (val a))) ->
  forall pts, NoDup (map fst pts ++ map key l) ->
  foldM f l pts = Ok (pts ++ map (fun a => (key a, val a)) l).
Proof.
  induction l as [|a t IH]; intros H pts Hnd.
  - simpl. now rewrite app_nil_r.
  - cbn [foldM]. rewrite H by (now left). cbn [bind].
    rewrite mput_fresh.
    + rewrite IH.
      * rewrite <- app_assoc. reflexivity.
      * intros. apply H. now right.
      * rewrite map_app. simpl. rewrite <- app_assoc. exact Hnd.
    + cbn [map] in Hnd. apply NoDup_remove_2 in Hnd. rewrite in_app_iff in Hnd. tauto.
Qed.

Lemma foldM_flat_map {A B S} (g : B -> list A) (f : S -> A -> res S) lb : forall s,
  foldM (fun s b => foldM f (g b) s) lb s = foldM f (flat_map g lb) s.
Proof.
  induction lb as [|b t IH]; intros s; [reflexivity|]. cbn [foldM flat_map]. rewrite foldM_app.
  destruct (foldM f (g b) s); cbn [bind]; auto.
Qed.

Lemma foldM_map {A B S} (g : A -> B) (f : S -> B -> res S) l : forall s,
  foldM f (map g l) s = foldM (fun s a => f s (g a)) l s.
Proof. induction l as [|a t IH]; intros s; [reflexivity|]. cbn [map foldM]. destruct (f s (g a)); cbn [bind]; auto. Qed.

(** * Boxes *)
Lemma flat_map_nth_const {A} (g : Z -> list A) a b L x i :
  (forall y, (a <= y < b)%Z -> lenZ (g y) = L) -> (a <= x < b)%Z -> (0 <= i < L)%Z ->
  nthZ (flat_map g (zrange a b)) ((x - a) * L + i) = nthZ (g x) i.
Proof.
  intros HL Hx Hi. assert (Hab : (a <= b)%Z) by lia. revert x i HL Hx Hi. pattern b.
  apply (zind_up _ a); auto; [intros; lia|]. clear b Hab. intros b Hab IH x i HL Hx Hi.
  rewrite (zrange_app a b (b + 1)) by lia. rewrite flat_map_app_f.
  assert (Hlen : forall c, (a <= c <= b)%Z -> lenZ (flat_map g (zrange a c)) = ((c - a) * L)%Z).
  { intros c Hc. rewrite flat_map_lenZ. rewrite (isum_ext _ (fun _ => L)) by (intros; apply HL; lia).
    rewrite isum_const by lia. lia. }
  destruct (Z.eq_dec x b) as [-> |Hne].
  - rewrite nthZ_app_r by (rewrite Hlen by lia; lia). rewrite Hlen by lia.
    rewrite (zrange_cons b), (zrange_nil (b + 1)) by lia. simpl. rewrite app_nil_r. f_equal. lia.
  - rewrite nthZ_app_l.
    + apply IH; auto; [intros; apply HL; lia|lia].
    + rewrite Hlen by lia. nia.
Qed.

Lemma box_nth i0 i1 j0 j1 k0 k1 i j k : (i0 <= i < i1)%Z -> (j0 <= j < j1)%Z -> (k0 <= k < k1)%Z ->
  nthZ (box i0 i1 j0 j1 k0 k1) (((k - k0) * (j1 - j0) + (j - j0)) * (i1 - i0) + (i - i0))%Z = Some (i, j, k).
Proof.
  intros Hi Hj Hk. unfold box.
  set (row := fun k j : Z => map (fun i : Z => (i, j, k)) (zrange i0 i1)).
  assert (Hrow : forall k j, lenZ (row k j) = (i1 - i0)%Z) by (intros; unfold row; rewrite lenZ_map, zrange_lenZ; lia).
  assert (Hpl : forall k, lenZ (flat_map (row k) (zrange j0 j1)) = ((j1 - j0) * (i1 - i0))%Z).
  { intros k'. rewrite flat_map_lenZ. rewrite (isum_ext _ (fun _ => (i1 - i0)%Z)) by (intros; apply Hrow).
    rewrite isum_const by lia. reflexivity. }
  replace (((k - k0) * (j1 - j0) + (j - j0)) * (i1 - i0) + (i - i0))%Z
    with ((k - k0) * ((j1 - j0) * (i1 - i0)) + ((j - j0) * (i1 - i0) + (i - i0)))%Z by ring.
  rewrite (flat_map_nth_const (fun k => flat_map (row k) (zrange j0 j1)) k0 k1 ((j1 - j0) * (i1 - i0)));
    [|intros; apply Hpl|lia|nia].
  rewrite (flat_map_nth_const (row k) j0 j1 (i1 - i0)); [|intros; apply Hrow|lia|lia].
  unfold row. rewrite nthZ_map, nthZ_zrange by lia. simpl. do 3 f_equal. lia.
Qed.

Lemma local_index_position m D f r q : mfacts m D -> (0 <= f < m_dim m \/ f = 3)%Z -> (0 <= r < nranks D)%Z ->
  In q (ghosted_points (m_dim m) D f r) ->
  exists l, getLocalIndex (m_dim m) D f r (st_of q) = Ok l /\
            nthZ (ghosted_points (m_dim m) D f r) l = Some q.
Proof.
  intros F Hf Hr Hin. destruct q as [[i j] k]. unfold ghosted_points in *.
  apply box_In in Hin. destruct Hin as (Hi & Hj & Hk). cbn [st_of].
  pose proof (mf_dim _ _ F) as Hd. pose proof (mf_sizes _ _ F f Hf) as Hs. pose proof (mf_dec _ _ F f Hf) as Hdec.
  assert (Hk2 : m_dim m = 2%Z -> k = 0%Z).
  { intros E. destruct Hs as (_ & _ & _ & _ & Hz). specialize (Hz E).
    assert (Hrg : (0 <= d_bg D f 2 r /\ d_ed D f 2 r <= m_n m f 2)%Z)
      by (pose proof (d_range D (m_n m f) f 2 r Hdec ltac:(lia) Hr); lia).
    rewrite E in Hk. simpl in Hk. lia. }
  erewrite local_index_ok; eauto; try lia.
  - eexists; split; [reflexivity|]. cbv zeta.
    match goal with |- nthZ (box ?a ?b ?c ?d ?e ?g) ?x = _ =>
      replace x with (((k - e) * (d - c) + (j - c)) * (b - a) + (i - a))%Z; [apply box_nth; lia|] end.
    unfold d_ed. destruct (Z.eqb_spec (m_dim m) 3) as [E|E]; [ring|].
    assert (E2 : m_dim m = 2%Z) by lia. specialize (Hk2 E2). subst k.
    assert (Hb : d_bg D f 2 r = 0%Z).
    { destruct Hs as (_ & _ & _ & _ & Hz). specialize (Hz E2).
      pose proof (d_range D (m_n m f) f 2 r Hdec ltac:(lia) Hr). unfold d_ed in *. lia. }
    rewrite Hb. ring.
  - intros E. rewrite E in Hk. simpl in Hk. lia.
Qed.

Lemma local_points_pc D f r p : In p (local_points D f r) <->
  forall d, (0 <= d < 3)%Z -> (d_bg D f d r <= pc p d < d_ed D f d r)%Z.
Proof.
  destruct p as [[i j] k]. rewrite local_points_In. split.
  - intros (A & B & C) d Hd. destruct (pt_cases d Hd) as [->|[->| ->]]; simpl; auto.
  - intros H. pose proof (H 0%Z ltac:(lia)). pose proof (H 1%Z ltac:(lia)). pose proof (H 2%Z ltac:(lia)). simpl in *. auto.
Qed.

Lemma ghosted_points_pc dim D f r p : (dim = 2 \/ dim = 3)%Z -> In p (ghosted_points dim D f r) <->
  forall d, (0 <= d < 3)%Z ->
    if (d <? dim)%Z then (d_bg D f d r - 1 <= pc p d < d_ed D f d r + 1)%Z
    else (d_bg D f d r <= pc p d < d_ed D f d r)%Z.
Proof.
  intros Hdim. destruct p as [[i j] k]. unfold ghosted_points. rewrite box_In. split.
  - intros (A & B & C) d Hd. destruct Hdim as [-> | ->]; destruct (pt_cases d Hd) as [->|[->| ->]]; simpl in *; auto.
  - intros H. pose proof (H 0%Z ltac:(lia)) as H0. pose proof (H 1%Z ltac:(lia)) as H1. pose proof (H 2%Z ltac:(lia)) as H2.
    destruct Hdim as [-> | ->]; simpl in *; auto.
Qed.

(** Index of an interior velocity point, and which rank stores it. *)
Definition idx (m : mesh) (D : dec) (f : Z) (p : pt) : Z := ok_or (-1)%Z (gidx m D f (st_of p)).

Lemma idx_spec m D f p : mfacts m D -> (0 <= f < m_dim m)%Z -> interior (m_n m f) p ->
  gidx m D f (st_of p) = Ok (idx m D f p) /\
  nthZ (packed_layout (m_dim m) D) (idx m D f p) = Some (f, p).
Proof.
  intros F Hf Hin. destruct p as [[i j] k]. unfold idx. rewrite gidx_st.
  destruct (packed_interior true (m_dim m) (m_n m) (m_periodic m 0%Z) D f i j k (mf_dim _ _ F)
    ltac:(intros; apply (mf_sizes _ _ F); auto) ltac:(intros g Hg; apply (mf_dec _ _ F); auto) Hf Hin) as (x & E & N).
  rewrite E. simpl. auto.
Qed.

Lemma idx_inj m D f p f' p' : mfacts m D -> (0 <= f < m_dim m)%Z -> interior (m_n m f) p ->
  (0 <= f' < m_dim m)%Z -> interior (m_n m f') p' -> idx m D f p = idx m D f' p' -> f = f' /\ p = p'.
Proof.
  intros F Hf Hp Hf' Hp' E. destruct (idx_spec m D f p F Hf Hp) as [_ A].
  destruct (idx_spec m D f' p' F Hf' Hp') as [_ B]. rewrite E in A. rewrite A in B. injection B as -> ->. auto.
Qed.

Lemma idx_range m D f p : mfacts m D -> (0 <= f < m_dim m)%Z -> interior (m_n m f) p ->
  (0 <= idx m D f p < isum (fun g => npoints (m_n m g)) 0 (m_dim m))%Z.
Proof.
  intros F Hf Hp. destruct (idx_spec m D f p F Hf Hp) as [_ A]. apply nthZ_Some_range in A.
  rewrite (packed_layout_len (m_dim m) D (m_n m)) in A; auto.
  - intros g Hg. apply (mf_dec _ _ F); auto.
  - intros g Hg. apply (mf_sizes _ _ F); auto.
  - pose proof (mf_dim _ _ F). lia.
Qed.

Lemma idx_local m D f p r : mfacts m D -> (0 <= f < m_dim m)%Z -> (0 <= r < nranks D)%Z ->
  In p (local_points D f r) ->
  (pack_start m D r <= idx m D f p < pack_start m D r + UPackNLocalAllProcs (m_dim m) D r)%Z.
Proof.
  intros F Hf Hr Hp. pose proof (mf_dec _ _ F f (or_introl Hf)) as Hd.
  assert (DA : dec_all (m_dim m) D (m_n m)) by (intros g Hg; apply (mf_dec _ _ F); auto).
  destruct (idx_spec m D f p F Hf (local_interior D _ f p r Hd Hr Hp)) as [_ A].
  rewrite packed_layout_eq in A. apply flat_map_nth_inv in A; [|lia].
  destruct A as (r' & x & Hr' & Hx & E). pose proof (nthZ_Some_range _ _ _ Hx) as Rx.
  apply nthZ_In in Hx. unfold rank_block in Hx. apply in_flat_map in Hx. destruct Hx as (g & _ & Hx).
  apply in_map_iff in Hx. destruct Hx as (q & Eq & Hq). injection Eq as -> ->.
  assert (r' = r) by (eapply owner_unique; eauto). subst r'.
  unfold pack_start, offsetsPackAllProcs. rewrite offsets_of_spec by lia.
  rewrite (rank_block_len _ _ (m_n m)) in Rx by (auto; apply (mf_dim _ _ F)).
  rewrite (isum_ext (fun q => lenZ (rank_block (m_dim m) D q)) (UPackNLocalAllProcs (m_dim m) D)) in E; [lia|].
  intros q Hq0. apply (rank_block_len _ _ (m_n m)); auto; [apply (mf_dim _ _ F)|lia].
Qed.

(** * The ghost list *)
Definition place (d x a b : Z) : pt := if (d =? 0)%Z then (x, a, b) else if (d =? 1)%Z then (a, x, b) else (a, b, x).

Lemma loc_cases loc : (0 <= loc < 6)%Z ->
  loc = 0%Z \/ loc = 1%Z \/ loc = 2%Z \/ loc = 3%Z \/ loc = 4%Z \/ loc = 5%Z.
Proof. lia. Qed.

Lemma loc_dir_range dim loc : (0 <= loc < dim * 2)%Z -> (0 <= loc_dir loc < dim)%Z.
Proof. intros H. unfold loc_dir. split; [apply Z.div_pos; lia|apply Z.div_lt_upper_bound; lia]. Qed.

Lemma ghostTarget_eq n loc a b : (0 <= loc < 6)%Z ->
  getGhostTargetStencil n loc a b =
  Ok (st_of (place (loc_dir loc) (ghost_layer n loc) a b), st_of (place (loc_dir loc) (inner_layer n loc) a b)).
Proof. intros H. destruct (loc_cases loc H) as [->|[->|[->|[->|[->| ->]]]]]; reflexivity. Qed.

Lemma perpend_eq d : (0 <= d < 3)%Z -> getPerpendAxes d = Ok (perp0 d, perp1 d).
Proof. intros H. destruct (pt_cases d H) as [->|[->| ->]]; reflexivity. Qed.

Lemma pc_place d x a b : (0 <= d < 3)%Z ->
  pc (place d x a b) d = x /\ pc (place d x a b) (perp0 d) = a /\ pc (place d x a b) (perp1 d) = b.
Proof. intros H. destruct (pt_cases d H) as [->|[->| ->]]; repeat split. Qed.

Lemma perp_range d : (0 <= d < 3)%Z -> (0 <= perp0 d < 3)%Z /\ (0 <= perp1 d < 3)%Z /\
  perp0 d <> d /\ perp1 d <> d /\ perp0 d <> perp1 d /\
  (forall e, (0 <= e < 3)%Z -> e = d \/ e = perp0 d \/ e = perp1 d).
Proof. intros H. destruct (pt_cases d H) as [->|[->| ->]]; unfold perp0, perp1; simpl; repeat split; try lia; intros; lia. Qed.

Lemma all3 d (P : Z -> Prop) : (0 <= d < 3)%Z -> P d -> P (perp0 d) -> P (perp1 d) ->
  forall e, (0 <= e < 3)%Z -> P e.
Proof.
  intros Hd A B C e He. destruct (perp_range d Hd) as (_ & _ & _ & _ & _ & G).
  destruct (G e He) as [->|[->| ->]]; auto.
Qed.

Lemma setc_place d x y a b : (0 <= d < 3)%Z -> setc (place d x a b) d y = place d y a b.
Proof. intros H. destruct (pt_cases d H) as [->|[->| ->]]; reflexivity. Qed.

Lemma place_surj d p : (0 <= d < 3)%Z -> p = place d (pc p d) (pc p (perp0 d)) (pc p (perp1 d)).
Proof. destruct p as [[i j] k]. intros H. destruct (pt_cases d H) as [->|[->| ->]]; reflexivity. Qed.

Lemma place_inj d x a b x' a' b' : (0 <= d < 3)%Z -> place d x a b = place d x' a' b' -> x = x' /\ a = a' /\ b = b'.
Proof.
  intros H E. destruct (pc_place d x a b H) as (A & B & C). destruct (pc_place d x' a' b' H) as (A' & B' & C').
  rewrite E in *. split; [|split]; congruence.
Qed.

(** The pairs (a, b) visited by getGhostPointList. *)
Definition ab_pairs (D : dec) (f d r : Z) : list (Z * Z) :=
  flat_map (fun b => map (fun a => (a, b)) (zrange (d_bg D f (perp0 d) r) (d_ed D f (perp0 d) r)))
           (zrange (d_bg D f (perp1 d) r) (d_ed D f (perp1 d) r)).

Lemma ab_pairs_In D f d r a b : In (a, b) (ab_pairs D f d r) <->
  (d_bg D f (perp0 d) r <= a < d_ed D f (perp0 d) r)%Z /\ (d_bg D f (perp1 d) r <= b < d_ed D f (perp1 d) r)%Z.
Proof.
  unfold ab_pairs. rewrite in_flat_map. split.
  - intros (y & Hy & H). apply in_map_iff in H. destruct H as (x & E & Hx). injection E as -> ->.
    apply zrange_In in Hx, Hy. auto.
  - intros [Ha Hb]. exists b. split; [now apply zrange_In|]. apply in_map_iff. exists a. split; auto. now apply zrange_In.
Qed.

Lemma ab_pairs_NoDup D f d r : NoDup (ab_pairs D f d r).
Proof.
  unfold ab_pairs. apply NoDup_flat_map; [apply zrange_NoDup| |].
  - intros b _. apply FinFun.Injective_map_NoDup; [intros x y E; congruence|apply zrange_NoDup].
  - intros b b' x _ _ H H'. apply in_map_iff in H, H'. destruct H as (? & <- & _), H' as (? & E & _). congruence.
Qed.

(** What the list stores for the pair (a, b). *)
Definition gl_info (m : mesh) (D : dec) (r f loc : Z) (ab : Z * Z) : ginfo :=
  let d := loc_dir loc in let n := m_n m f in
  let g := place d (ghost_layer n loc) (fst ab) (snd ab) in
  let t := place d (inner_layer n loc) (fst ab) (snd ab) in
  mkGI (ok_or (-1)%Z (getLocalIndex (m_dim m) D f r (st_of g))) (st_of t) (idx m D f t)
       (wid m f (perp0 d) (fst ab) * wid m f (perp1 d) (snd ab))
       (Rabs (crd m f d (ghost_layer n loc) - crd m f d (inner_layer n loc))) 0 0 0.
Definition gl_key (m : mesh) (f loc : Z) (ab : Z * Z) : stencil :=
  st_of (place (loc_dir loc) (ghost_layer (m_n m f) loc) (fst ab) (snd ab)).

Lemma layers n loc : (1 <= n (loc_dir loc))%Z ->
  (0 <= inner_layer n loc < n (loc_dir loc))%Z /\
  (-1 <= ghost_layer n loc <= n (loc_dir loc))%Z /\
  (inner_layer n loc - ghost_layer n loc = 1 \/ ghost_layer n loc - inner_layer n loc = 1)%Z /\
  outside (n (loc_dir loc)) (ghost_layer n loc) = true.
Proof.
  intros H. unfold inner_layer, ghost_layer, outside. destruct (loc mod 2 =? 0)%Z eqn:E; lia.
Qed.

Lemma ghost_gap m D f loc : mfacts m D -> (0 <= f < m_dim m)%Z -> (0 <= loc < m_dim m * 2)%Z ->
  let n := m_n m f in let d := loc_dir loc in
  (if (loc =? 1)%Z || (loc =? 3)%Z || (loc =? 5)%Z
   then do x <- m_coord m f d (n d); do y <- m_coord m f d (n d - 1)%Z; Ok (x - y)
   else do x <- m_coord m f d 0; do y <- m_coord m f d (-1); Ok (x - y))
  = Ok (Rabs (crd m f d (ghost_layer n loc) - crd m f d (inner_layer n loc))) /\
  0 < Rabs (crd m f d (ghost_layer n loc) - crd m f d (inner_layer n loc)) /\
  crd m f d (ghost_layer n loc) - crd m f d (inner_layer n loc) =
    normal_of loc * Rabs (crd m f d (ghost_layer n loc) - crd m f d (inner_layer n loc)).
Proof.
  intros F Hf Hl n d. pose proof (loc_dir_range _ _ Hl) as Hd. fold d in Hd.
  pose proof (mf_dim _ _ F) as Hdim.
  assert (Hn : (1 <= n d)%Z) by (pose proof (mf_np _ _ F f d (or_introl Hf) ltac:(lia)); unfold n; lia).
  assert (Hodd : ((loc =? 1) || (loc =? 3) || (loc =? 5))%Z = negb (loc mod 2 =? 0)%Z).
  { pose proof (mf_dim _ _ F). destruct (loc_cases loc ltac:(lia)) as [->|[->|[->|[->|[->| ->]]]]]; reflexivity. }
  rewrite Hodd. unfold ghost_layer, inner_layer, normal_of. fold d. destruct (loc mod 2 =? 0)%Z; cbn [negb].
  - rewrite !(mf_coord _ _ F) by (unfold n in *; auto; lia). cbn [bind].
    pose proof (mf_incr _ _ F f d (-1) 0 Hf Hd ltac:(lia) ltac:(lia) ltac:(unfold n in *; lia)).
    rewrite Rabs_left by lra. repeat split; [f_equal; lra|lra|lra].
  - rewrite !(mf_coord _ _ F) by (unfold n in *; auto; lia). cbn [bind].
    pose proof (mf_incr _ _ F f d (n d - 1) (n d) Hf Hd ltac:(lia) ltac:(lia) ltac:(unfold n in *; lia)).
    rewrite Rabs_right by lra. repeat split; [lra|lra].
Qed.

Lemma wid_read m D f d i : mfacts m D -> (0 <= f < m_dim m)%Z -> (0 <= d < 3)%Z -> (0 <= i < m_n m f d)%Z ->
  m_dL m f d i = Ok (wid m f d i) /\ 0 < wid m f d i.
Proof.
  intros F Hf Hd Hi. destruct (Z_lt_dec d (m_dim m)) as [H|H].
  - apply (mf_wid _ _ F); auto; lia.
  - assert (E2 : m_dim m = 2%Z) by (pose proof (mf_dim _ _ F); lia). assert (d = 2%Z) by lia. subst d.
    destruct (mf_flat _ _ F f (or_introl Hf) E2) as (A & B & C). rewrite A in Hi. assert (i = 0%Z) by lia. subst i.
    rewrite B, C. split; [reflexivity|lra].
Qed.

Lemma ghost_list_ok m D r f loc : mfacts m D -> (0 <= f < m_dim m)%Z -> (0 <= loc < m_dim m * 2)%Z ->
  (0 <= r < nranks D)%Z -> checkBoundaryProc (m_n m f) D r f loc = true ->
  getGhostPointList m D r f loc
  = Ok (map (fun ab => (gl_key m f loc ab, gl_info m D r f loc ab)) (ab_pairs D f (loc_dir loc) r)).
Proof.
  intros F Hf Hl Hr Hon. pose proof (mf_dim _ _ F) as Hdim. pose proof (loc_dir_range _ _ Hl) as Hd.
  pose proof (mf_dec _ _ F f (or_introl Hf)) as Hdec. pose proof (mf_sizes _ _ F f (or_introl Hf)) as Hs.
  set (d := loc_dir loc) in *. set (n := m_n m f) in *.
  assert (Hd3 : (0 <= d < 3)%Z) by lia.
  assert (Hn : (1 <= n d)%Z) by (pose proof (mf_np _ _ F f d (or_introl Hf) Hd3); unfold n; lia).
  pose proof (layers n loc Hn) as (L1 & L2 & L3 & L4). fold d in L1, L2, L4.
  destruct (perp_range d Hd3) as (P0 & P1 & P2 & P3 & P4 & P5).
  unfold getGhostPointList. change (loc / 2)%Z with (loc_dir loc). fold d. rewrite perpend_eq by auto. cbn [bind].
  fold n.
  rewrite (foldM_ext _ (fun pts b => foldM (fun pts ab =>
      do (ghost, target) <- getGhostTargetStencil n loc (fst ab) (snd ab);
      do targetId <- gidx m D f target;
      do ghostId <- getLocalIndex (m_dim m) D f r ghost;
      do w0 <- m_dL m f (perp0 d) (fst ab);
      do w1 <- m_dL m f (perp1 d) (snd ab);
      do dd <- (if (loc =? 1)%Z || (loc =? 3)%Z || (loc =? 5)%Z
               then do x <- m_coord m f d (n d); do y <- m_coord m f d (n d - 1)%Z; Ok (x - y)
               else do x <- m_coord m f d 0; do y <- m_coord m f d (-1); Ok (x - y));
      Ok (mput pts ghost (mkGI ghostId target targetId (w0 * w1) dd 0 0 0)))
      (map (fun a => (a, b)) (zrange (d_bg D f (perp0 d) r) (d_ed D f (perp0 d) r))) pts)).
  2: { intros s b Hb. rewrite foldM_map. reflexivity. }
  rewrite foldM_flat_map. fold (ab_pairs D f d r).
  rewrite (foldM_mput _ (gl_key m f loc) (gl_info m D r f loc)).
  - reflexivity.
  - intros pts [a b] Hin. apply ab_pairs_In in Hin. destruct Hin as [Ha Hb]. cbn [fst snd].
    rewrite ghostTarget_eq by lia. cbn [bind]. fold d.
    pose proof (d_range D n f (perp0 d) r Hdec P0 Hr) as Ra. pose proof (d_range D n f (perp1 d) r Hdec P1 Hr) as Rb.
    destruct (pc_place d (inner_layer n loc) a b Hd3) as (X1 & X2 & X3).
    assert (Hint : interior n (place d (inner_layer n loc) a b)).
    { apply interior_pc. apply (all3 d); auto; [rewrite X1|rewrite X2|rewrite X3]; lia. }
    destruct (idx_spec m D f (place d (inner_layer n loc) a b) F Hf Hint) as [Eg _]. rewrite Eg. cbn [bind].
    destruct (pc_place d (ghost_layer n loc) a b Hd3) as (Y1 & Y2 & Y3).
    assert (Hgh : In (place d (ghost_layer n loc) a b) (ghosted_points (m_dim m) D f r)).
    { apply ghosted_points_pc; auto. unfold checkBoundaryProc in Hon. change (loc / 2)%Z with (loc_dir loc) in Hon. fold d in Hon.
      apply (all3 d); auto.
      - rewrite Y1. replace (d <? m_dim m)%Z with true by lia. unfold ghost_layer. fold d. destruct (loc mod 2 =? 0)%Z; lia.
      - rewrite Y2. destruct (perp0 d <? m_dim m)%Z; lia.
      - rewrite Y3. destruct (perp1 d <? m_dim m)%Z; lia. }
    destruct (local_index_position m D f r _ F (or_introl Hf) Hr Hgh) as (l & El & _). rewrite El. cbn [bind].
    destruct (wid_read m D f (perp0 d) a F Hf P0 ltac:(unfold n in *; lia)) as [W0 _]. rewrite W0. cbn [bind].
    destruct (wid_read m D f (perp1 d) b F Hf P1 ltac:(unfold n in *; lia)) as [W1 _]. rewrite W1. cbn [bind].
    destruct (ghost_gap m D f loc F Hf Hl) as [G _]. fold d in G. fold n in G. rewrite G. cbn [bind].
    unfold gl_info, gl_key. cbn [fst snd]. fold d. fold n. rewrite El. reflexivity.
  - simpl. rewrite map_map || idtac.
    apply NoDup_map_inv with (f := fun s => s). rewrite map_id.
    assert (NoDup (ab_pairs D f d r)) by apply ab_pairs_NoDup.
    apply FinFun.Injective_map_NoDup; [|exact H].
    intros [a b] [a' b'] E. unfold gl_key in E. cbn [fst snd] in E. apply st_of_inj in E. fold d in E.
    apply place_inj in E; auto. destruct E as (_ & -> & ->). reflexivity.
Qed.

(** * C11 *)
Definition gl_points (m : mesh) (D : dec) (r f loc : Z) : list (stencil * ginfo) :=
  if checkBoundaryProc (m_n m f) D r f loc
  then map (fun ab => (gl_key m f loc ab, gl_info m D r f loc ab)) (ab_pairs D f (loc_dir loc) r) else [].

Lemma create_ok m D r loc f v ty : mfacts m D -> (0 <= f < m_dim m)%Z -> (0 <= loc < m_dim m * 2)%Z ->
  (0 <= r < nranks D)%Z -> ghosted_type ty ->
  createSingleBoundary m D r loc f v ty =
  Ok (mkSB ty loc f v (normal_of loc) (checkBoundaryProc (m_n m f) D r f loc) (gl_points m D r f loc)).
Proof.
  intros F Hf Hl Hr Ht.
  assert (E : sb_init m D r loc f ty v =
    Ok (mkSB ty loc f v (normal_of loc) (checkBoundaryProc (m_n m f) D r f loc) (gl_points m D r f loc))).
  { unfold sb_init, gl_points. destruct (checkBoundaryProc (m_n m f) D r f loc) eqn:Hon; [|reflexivity].
    rewrite ghost_list_ok by auto. reflexivity. }
  destruct Ht as [->|[->| ->]]; exact E.
Qed.

Lemma gl_points_In m D r f loc q : mfacts m D -> (0 <= f < m_dim m)%Z -> (0 <= loc < m_dim m * 2)%Z ->
  (0 <= r < nranks D)%Z ->
  (In (st_of q) (map fst (gl_points m D r f loc)) <->
   is_ghost (m_n m f) loc q /\ In (inner_of (m_n m f) loc q) (local_points D f r)).
Proof.
  intros F Hf Hl Hr. pose proof (mf_dim _ _ F) as Hdim. pose proof (loc_dir_range _ _ Hl) as Hd.
  pose proof (mf_dec _ _ F f (or_introl Hf)) as Hdec.
  assert (Hd3 : (0 <= loc_dir loc < 3)%Z) by lia.
  destruct (perp_range _ Hd3) as (P0 & P1 & P2 & P3 & P4 & P5).
  unfold is_ghost, inner_of. set (n := m_n m f) in *. set (d := loc_dir loc) in *.
  assert (Hon : checkBoundaryProc n D r f loc = true <-> (d_bg D f d r <= inner_layer n loc < d_ed D f d r)%Z).
  { unfold checkBoundaryProc, inner_layer. change (loc / 2)%Z with d. fold d. destruct (loc mod 2 =? 0)%Z; lia. }
  split.
  - unfold gl_points. fold n. destruct (checkBoundaryProc n D r f loc) eqn:Hc; [|simpl; tauto].
    intros H. apply in_map_iff in H. destruct H as ([s i] & E & H). simpl in E. subst s.
    apply in_map_iff in H. destruct H as ([a b] & E & H). injection E as E _. unfold gl_key in E. apply st_of_inj in E.
    cbn [fst snd] in E. fold d n in E. subst q. apply ab_pairs_In in H. fold d in H.
    destruct (pc_place d (ghost_layer n loc) a b Hd3) as (Y1 & _). rewrite Y1.
    rewrite setc_place by auto.
    destruct (pc_place d (inner_layer n loc) a b Hd3) as (X1 & X2 & X3).
    assert (L : In (place d (inner_layer n loc) a b) (local_points D f r)).
    { apply local_points_pc. apply (all3 d); auto; [rewrite X1|rewrite X2|rewrite X3]; lia. }
    split; [split|]; auto. eapply local_interior; eauto.
  - intros [[Hg Hint] L]. rewrite (place_surj d q Hd3). rewrite Hg.
    rewrite (place_surj d q Hd3) in L. rewrite setc_place in L by auto. rewrite local_points_pc in L.
    destruct (pc_place d (inner_layer n loc) (pc q (perp0 d)) (pc q (perp1 d)) Hd3) as (X1 & X2 & X3).
    pose proof (L d Hd3) as L1. pose proof (L _ P0) as L2. pose proof (L _ P1) as L3. rewrite X1 in L1. rewrite X2 in L2. rewrite X3 in L3.
    unfold gl_points. fold n. replace (checkBoundaryProc n D r f loc) with true by (symmetry; now apply Hon).
    rewrite map_map. apply in_map_iff. exists (pc q (perp0 d), pc q (perp1 d)). split; [reflexivity|].
    apply ab_pairs_In. auto.
Qed.

Lemma gl_points_NoDup m D r f loc : mfacts m D -> (0 <= loc < m_dim m * 2)%Z -> NoDup (map fst (gl_points m D r f loc)).
Proof.
  intros F Hl. unfold gl_points. destruct (checkBoundaryProc _ _ _ _ _); [|constructor].
  rewrite map_map. apply FinFun.Injective_map_NoDup; [|apply ab_pairs_NoDup].
  intros [a b] [a' b'] E. cbn [fst] in E. unfold gl_key in E. cbn [fst snd] in E. apply st_of_inj in E.
  pose proof (loc_dir_range _ _ Hl). pose proof (mf_dim _ _ F).
  apply place_inj in E; [|lia]. destruct E as (_ & -> & ->). reflexivity.
Qed.

Lemma gl_points_keys m D r f loc s : In s (map fst (gl_points m D r f loc)) -> exists q, s = st_of q.
Proof.
  unfold gl_points. destruct (checkBoundaryProc _ _ _ _ _); [|simpl; tauto]. rewrite map_map. intros H.
  apply in_map_iff in H. destruct H as (ab & <- & _). eexists. reflexivity.
Qed.

Lemma gl_points_info m D r f loc q info : mfacts m D -> (0 <= f < m_dim m)%Z -> (0 <= loc < m_dim m * 2)%Z ->
  (0 <= r < nranks D)%Z -> In (st_of q, info) (gl_points m D r f loc) ->
  let n := m_n m f in let d := loc_dir loc in let t := inner_of n loc q in
  gi_target info = st_of t /\
  gi_tid info = idx m D f t /\
  nthZ (packed_layout (m_dim m) D) (gi_tid info) = Some (f, t) /\
  In t (local_points D f r) /\
  nthZ (ghosted_points (m_dim m) D f r) (gi_lcl info) = Some q /\
  gi_dL info = Rabs (crd m f d (pc q d) - crd m f d (pc t d)) /\ 0 < gi_dL info /\
  crd m f d (pc q d) - crd m f d (pc t d) = normal_of loc * gi_dL info /\
  gi_area info = wid m f (perp0 d) (pc q (perp0 d)) * wid m f (perp1 d) (pc q (perp1 d)) /\
  0 < gi_area info.
Proof.
  intros F Hf Hl Hr Hin n d t. pose proof (mf_dim _ _ F) as Hdim. pose proof (loc_dir_range _ _ Hl) as Hd.
  pose proof (mf_dec _ _ F f (or_introl Hf)) as Hdec.
  assert (Hd3 : (0 <= loc_dir loc < 3)%Z) by lia.
  assert (G : is_ghost n loc q /\ In t (local_points D f r)).
  { apply gl_points_In; auto. apply in_map_iff. exists (st_of q, info). auto. }
  destruct G as [[Hg Hint] L]. fold d in Hg.
  destruct (perp_range _ Hd3) as (P0 & P1 & P2 & P3 & P4 & P5). fold d in Hd3, P0, P1, P2, P3, P4, P5.
  unfold gl_points in Hin. fold n in Hin.
  destruct (checkBoundaryProc n D r f loc) eqn:Hc; [|simpl in Hin; tauto].
  apply in_map_iff in Hin. destruct Hin as ([a b] & E & H). injection E as E <-.
  unfold gl_key in E. apply st_of_inj in E. cbn [fst snd] in E. fold d n in E.
  apply ab_pairs_In in H. fold d in H.
  assert (Et : t = place d (inner_layer n loc) a b).
  { unfold t, inner_of. fold d. rewrite <- E. apply setc_place. auto. }
  destruct (pc_place d (inner_layer n loc) a b Hd3) as (X1 & X2 & X3).
  destruct (pc_place d (ghost_layer n loc) a b Hd3) as (Y1 & Y2 & Y3).
  pose proof (d_range D n f (perp0 d) r Hdec P0 Hr) as Ra. pose proof (d_range D n f (perp1 d) r Hdec P1 Hr) as Rb.
  destruct (idx_spec m D f t F Hf Hint) as [_ Eidx].
  unfold gl_info. fold d n. cbn [gi_target gi_tid gi_lcl gi_dL gi_area fst snd]. rewrite <- Et.
  assert (Hgh : In q (ghosted_points (m_dim m) D f r)).
  { rewrite <- E. apply ghosted_points_pc; auto. unfold checkBoundaryProc in Hc. change (loc / 2)%Z with d in Hc.
    apply (all3 d); auto.
    - rewrite Y1. replace (d <? m_dim m)%Z with true by (unfold d; lia). unfold ghost_layer. fold d. destruct (loc mod 2 =? 0)%Z; lia.
    - rewrite Y2. destruct (perp0 d <? m_dim m)%Z; lia.
    - rewrite Y3. destruct (perp1 d <? m_dim m)%Z; lia. }
  destruct (local_index_position m D f r _ F (or_introl Hf) Hr Hgh) as (l & El & Nl).
  destruct (ghost_gap m D f loc F Hf Hl) as (_ & G1 & G2). fold n d in G1, G2.
  rewrite E. rewrite El. cbn [ok_or].
  rewrite <- E at 2 3 4 5. rewrite Et. rewrite X1, Y1, Y2, Y3.
  destruct (wid_read m D f (perp0 d) a F Hf P0 ltac:(unfold n in *; lia)) as [_ W0].
  destruct (wid_read m D f (perp1 d) b F Hf P1 ltac:(unfold n in *; lia)) as [_ W1].
  rewrite <- Et. repeat split; auto. now apply Rmult_lt_0_compat.
Qed.

Lemma ghost_one_rank m D f loc q : mfacts m D -> (0 <= f < m_dim m)%Z -> (0 <= loc < m_dim m * 2)%Z ->
  is_ghost (m_n m f) loc q ->
  exists r, (0 <= r < nranks D)%Z /\ In (st_of q) (map fst (gl_points m D r f loc)) /\
    forall r', (0 <= r' < nranks D)%Z -> In (st_of q) (map fst (gl_points m D r' f loc)) -> r' = r.
Proof.
  intros F Hf Hl Hg. pose proof (mf_dec _ _ F f (or_introl Hf)) as Hdec.
  destruct (owner_exists D (m_n m f) f (inner_of (m_n m f) loc q) Hdec (proj2 Hg)) as (r & Hr & L).
  exists r. split; auto. split; [apply gl_points_In; auto|].
  intros r' Hr' H. apply gl_points_In in H; auto. destruct H as [_ L']. eapply owner_unique; eauto.
Qed.

(** * C12, C13 *)
Definition pstep (sb : sbd) (p : ginfo) (o : bop) : ginfo :=
  match o with
  | OpICs v => setGhostICsKernel sb (v (gi_tid p)) p
  | OpEqs v dt => updateEqsKernel sb (v (gi_tid p)) dt p
  | OpVals v => set_value p (gi_a0 p * v (gi_tid p) + gi_a1 p)
  end.

Definition geom (p : ginfo) := (gi_lcl p, gi_target p, gi_tid p, gi_area p, gi_dL p).
Lemma kernel_geom sb tv dt p : geom (kernelConvective sb tv dt p) = geom p.
Proof. unfold kernelConvective, kernelConvectiveSameDir, kernelConvectiveDiffDir. destruct (_ =? _)%Z; reflexivity. Qed.
Lemma pstep_geom sb p o : geom (pstep sb p o) = geom p.
Proof.
  destruct o; cbn [pstep]; unfold setGhostICsKernel, updateEqsKernel; try reflexivity.
  - destruct (sb_type sb); try reflexivity; [destruct (_ =? _)%Z; reflexivity|]. rewrite kernel_geom. reflexivity.
  - destruct (sb_type sb); try reflexivity. apply kernel_geom.
Qed.
Lemma psteps_geom sb ops p : geom (fold_left (pstep sb) ops p) = geom p.
Proof. revert p. induction ops as [|o t IH]; intros p; [reflexivity|]. cbn [fold_left]. rewrite IH. apply pstep_geom. Qed.
Lemma geom_tid p q : geom p = geom q -> gi_tid p = gi_tid q.
Proof. unfold geom. congruence. Qed.
Lemma geom_dL p q : geom p = geom q -> gi_dL p = gi_dL q.
Proof. unfold geom. congruence. Qed.

Definition with_points (sb : sbd) (pts : list (stencil * ginfo)) : sbd :=
  mkSB (sb_type sb) (sb_loc sb) (sb_field sb) (sb_value sb) (sb_normal sb) (sb_on sb) pts.
Definition tids_local (m : mesh) (D : dec) (r : Z) (pts : list (stencil * ginfo)) : Prop :=
  forall kp, In kp pts ->
  (pack_start m D r <= gi_tid (snd kp) < pack_start m D r + UPackNLocalAllProcs (m_dim m) D r)%Z.

Lemma sb_map_ok m D r vec k sb : tids_local m D r (sb_points sb) ->
  sb_map m D r vec k sb = Ok (with_points sb (map (fun kp => (fst kp, k (vec (gi_tid (snd kp))) (snd kp))) (sb_points sb))).
Proof.
  intros H. unfold sb_map. rewrite (mapM_ok _ (fun kp => (fst kp, k (vec (gi_tid (snd kp))) (snd kp)))).
  - reflexivity.
  - intros kp Hin. specialize (H kp Hin). unfold vec_get.
    replace ((pack_start m D r <=? gi_tid (snd kp)) &&
     (gi_tid (snd kp) <? pack_start m D r + UPackNLocalAllProcs (m_dim m) D r))%Z with true by lia. reflexivity.
Qed.

Lemma run_bop_ok m D r sb o : tids_local m D r (sb_points sb) ->
  run_bop m D r sb o = Ok (with_points sb (map (fun kp => (fst kp, pstep sb (snd kp) o)) (sb_points sb))).
Proof.
  intros H. destruct o; cbn [run_bop]; [unfold setGhostICs|unfold updateEqs|unfold updateGhostValues];
    rewrite sb_map_ok by auto; reflexivity.
Qed.

Lemma pstep_with sb pts p o : pstep (with_points sb pts) p o = pstep sb p o.
Proof. destruct o; reflexivity. Qed.

Lemma run_bops_ok m D r ops : forall sb, tids_local m D r (sb_points sb) ->
  run_bops m D r ops sb = Ok (with_points sb (map (fun kp => (fst kp, fold_left (pstep sb) ops (snd kp))) (sb_points sb))).
Proof.
  induction ops as [|o t IH]; intros sb H.
  - unfold run_bops. cbn [foldM fold_left]. f_equal. destruct sb as [a b c d e g h]. unfold with_points; cbn.
    f_equal. rewrite <- (map_id h) at 1. apply map_ext. intros [? ?]; reflexivity.
  - unfold run_bops in *. cbn [foldM]. rewrite run_bop_ok by auto. cbn [bind].
    rewrite IH.
    + unfold with_points; cbn. do 2 f_equal. rewrite map_map. apply map_ext. intros [k p]. cbn [fst snd]. f_equal.
    + cbn. intros kp Hin. apply in_map_iff in Hin. destruct Hin as ([k p] & <- & Hin). cbn [snd].
      rewrite (geom_tid _ _ (pstep_geom sb p o)). apply (H _ Hin).
Qed.

Lemma gl_tids_local m D r f loc : mfacts m D -> (0 <= f < m_dim m)%Z -> (0 <= loc < m_dim m * 2)%Z ->
  (0 <= r < nranks D)%Z -> tids_local m D r (gl_points m D r f loc).
Proof.
  intros F Hf Hl Hr [s p] Hin. cbn [snd].
  destruct (gl_points_keys m D r f loc s) as [q ->]. { apply in_map_iff. exists (s, p). auto. }
  destruct (gl_points_info m D r f loc q p F Hf Hl Hr Hin) as (_ & E & _ & L & _). rewrite E. now apply idx_local.
Qed.

(** The whole history of one boundary. *)
Lemma history_ok m D r loc f v ty ops sb : mfacts m D -> (0 <= f < m_dim m)%Z -> (0 <= loc < m_dim m * 2)%Z ->
  (0 <= r < nranks D)%Z -> ghosted_type ty ->
  createSingleBoundary m D r loc f v ty = Ok sb ->
  run_bops m D r ops sb = Ok (with_points sb (map (fun kp => (fst kp, fold_left (pstep sb) ops (snd kp))) (sb_points sb)))
  /\ sb = mkSB ty loc f v (normal_of loc) (checkBoundaryProc (m_n m f) D r f loc) (gl_points m D r f loc).
Proof.
  intros F Hf Hl Hr Ht E. rewrite create_ok in E by auto. injection E as <-. split; [|reflexivity].
  apply run_bops_ok. cbn. now apply gl_tids_local.
Qed.

(** Equations stored after the initial conditions were set. *)
Definition dir_eq (sb : sbd) (p : ginfo) : Prop :=
  if (sb_loc sb / 2 =? sb_field sb)%Z then gi_a0 p = 0 /\ gi_a1 p = sb_value sb
  else gi_a0 p = -1 /\ gi_a1 p = 2 * sb_value sb.
Definition neu_eq (sb : sbd) (p : ginfo) : Prop :=
  gi_a0 p = 1 /\ gi_a1 p = sb_normal sb * gi_dL p * sb_value sb.
Definition con_eq (sb : sbd) (p : ginfo) : Prop :=
  gi_a0 p = if (sb_loc sb / 2 =? sb_field sb)%Z then 0 else -1.
Definition eqs_inv (sb : sbd) (p : ginfo) : Prop :=
  match sb_type sb with DIRICHLET => dir_eq sb p | NEUMANN => neu_eq sb p | CONVECTIVE => con_eq sb p | _ => True end.

Lemma ics_inv sb p v : eqs_inv sb (pstep sb p (OpICs v)).
Proof.
  unfold eqs_inv. cbn [pstep]. unfold setGhostICsKernel. destruct (sb_type sb); auto.
  - unfold dir_eq. destruct (_ =? _)%Z; cbn; auto.
  - split; reflexivity.
  - unfold con_eq, kernelConvective. destruct (_ =? _)%Z; reflexivity.
Qed.
Lemma step_inv sb p o : eqs_inv sb p -> eqs_inv sb (pstep sb p o).
Proof.
  intros H. destruct o; [apply ics_inv| |].
  - unfold eqs_inv in *. cbn [pstep]. unfold updateEqsKernel. destruct (sb_type sb); auto.
    unfold con_eq, kernelConvective in *. destruct (_ =? _)%Z; reflexivity.
  - unfold eqs_inv, dir_eq, neu_eq, con_eq in *. cbn [pstep]. destruct (sb_type sb); exact H.
Qed.
Lemma steps_inv sb ops : forall p, (eqs_inv sb p \/ exists v0, In (OpICs v0) ops) -> eqs_inv sb (fold_left (pstep sb) ops p).
Proof.
  induction ops as [|o t IH]; intros p H; cbn [fold_left].
  - destruct H as [H|[v0 []]]. exact H.
  - apply IH. destruct H as [H|[v0 [->|H]]]; [left; now apply step_inv|left; apply ics_inv|right; eauto].
Qed.

(** Last operation: the values were refreshed with vec. *)
Lemma refreshed sb p o vec : (o = OpICs vec \/ o = OpVals vec) -> sb_type sb <> CONVECTIVE -> ghosted_type (sb_type sb) ->
  let p' := pstep sb p o in gi_value p' = gi_a0 p' * vec (gi_tid p') + gi_a1 p'.
Proof.
  intros [->| ->] Hc Ht p'; unfold p'; cbn [pstep]; [|reflexivity]. unfold setGhostICsKernel.
  destruct Ht as [E|[E|E]]; rewrite E; [destruct (_ =? _)%Z; reflexivity|reflexivity|contradiction].
Qed.

Lemma In_map_snd {A B} (g : B -> B) (l : list (A * B)) k y :
  In (k, y) (map (fun kp => (fst kp, g (snd kp))) l) -> exists x, In (k, x) l /\ y = g x.
Proof. intros H. apply in_map_iff in H. destruct H as ([a b] & E & H). cbn in E. injection E as <- <-. eauto. Qed.

Lemma map_fst_map_snd {A B} (g : B -> B) (l : list (A * B)) :
  map fst (map (fun kp => (fst kp, g (snd kp))) l) = map fst l.
Proof. rewrite map_map. reflexivity. Qed.

Lemma dirichlet_lemma m D r loc f v sb pre o vec sb' : mfacts m D -> (0 <= f < m_dim m)%Z -> (0 <= loc < m_dim m * 2)%Z ->
  (0 <= r < nranks D)%Z -> createSingleBoundary m D r loc f v DIRICHLET = Ok sb ->
  (exists v0, In (OpICs v0) (pre ++ [o])) -> (o = OpICs vec \/ o = OpVals vec) ->
  run_bops m D r (pre ++ [o]) sb = Ok sb' ->
  forall q info, In (st_of q, info) (sb_points sb') ->
  exists id, nthZ (packed_layout (m_dim m) D) id = Some (f, inner_of (m_n m f) loc q) /\
  (loc_dir loc = f -> gi_value info = v) /\
  (loc_dir loc <> f -> (gi_value info + vec id) / 2 = v).
Proof.
  intros F Hf Hl Hr Hc Hics Ho Hrun q info Hin.
  destruct (history_ok _ _ _ _ _ _ _ (pre ++ [o]) _ F Hf Hl Hr (or_introl eq_refl) Hc) as [E Esb].
  rewrite E in Hrun. injection Hrun as <-. cbn [with_points sb_points] in Hin.
  apply (In_map_snd (fun p => fold_left (pstep sb) (pre ++ [o]) p)) in Hin. destruct Hin as (p & Hin & ->).
  pose proof (steps_inv sb (pre ++ [o]) p (or_intror Hics)) as I.
  assert (Hp : In (st_of q, p) (gl_points m D r f loc)) by (rewrite Esb in Hin; exact Hin).
  destruct (gl_points_info m D r f loc q p F Hf Hl Hr Hp) as (_ & _ & N & _).
  exists (gi_tid p). split; [exact N|].
  pose proof (geom_tid _ _ (psteps_geom sb (pre ++ [o]) p)) as Et.
  rewrite fold_left_app in *. cbn [fold_left] in *.
  assert (V := refreshed sb (fold_left (pstep sb) pre p) o vec Ho ltac:(rewrite Esb; discriminate) ltac:(rewrite Esb; left; reflexivity)).
  cbv zeta in V. rewrite V, Et. unfold eqs_inv in I.
  assert (T : sb_type sb = DIRICHLET) by (now rewrite Esb). rewrite T in I. unfold dir_eq in I.
  assert (X : (sb_loc sb / 2 =? sb_field sb)%Z = (loc_dir loc =? f)%Z /\ sb_value sb = v) by (rewrite Esb; split; reflexivity).
  destruct X as [X1 X2]. rewrite X1, X2 in I.
  destruct (Z.eqb_spec (loc_dir loc) f) as [Hs|Hs]; destruct I as [-> ->]; split; intros; try contradiction; lra.
Qed.

Lemma neumann_lemma m D r loc f v sb pre o vec sb' : mfacts m D -> (0 <= f < m_dim m)%Z -> (0 <= loc < m_dim m * 2)%Z ->
  (0 <= r < nranks D)%Z -> createSingleBoundary m D r loc f v NEUMANN = Ok sb ->
  (exists v0, In (OpICs v0) (pre ++ [o])) -> (o = OpICs vec \/ o = OpVals vec) ->
  run_bops m D r (pre ++ [o]) sb = Ok sb' ->
  forall q info, In (st_of q, info) (sb_points sb') ->
  exists id, nthZ (packed_layout (m_dim m) D) id = Some (f, inner_of (m_n m f) loc q) /\
  (gi_value info - vec id) /
    (crd m f (loc_dir loc) (pc q (loc_dir loc)) - crd m f (loc_dir loc) (pc (inner_of (m_n m f) loc q) (loc_dir loc))) = v.
Proof.
  intros F Hf Hl Hr Hc Hics Ho Hrun q info Hin.
  destruct (history_ok _ _ _ _ _ _ _ (pre ++ [o]) _ F Hf Hl Hr (or_intror (or_introl eq_refl)) Hc) as [E Esb].
  rewrite E in Hrun. injection Hrun as <-. cbn [with_points sb_points] in Hin.
  apply (In_map_snd (fun p => fold_left (pstep sb) (pre ++ [o]) p)) in Hin. destruct Hin as (p & Hin & ->).
  pose proof (steps_inv sb (pre ++ [o]) p (or_intror Hics)) as I.
  assert (Hp : In (st_of q, p) (gl_points m D r f loc)) by (rewrite Esb in Hin; exact Hin).
  destruct (gl_points_info m D r f loc q p F Hf Hl Hr Hp) as (_ & _ & N & _ & _ & _ & Pd & Es & _).
  exists (gi_tid p). split; [exact N|].
  pose proof (geom_tid _ _ (psteps_geom sb (pre ++ [o]) p)) as Et.
  pose proof (geom_dL _ _ (psteps_geom sb (pre ++ [o]) p)) as Ed.
  rewrite fold_left_app in *. cbn [fold_left] in *.
  assert (V := refreshed sb (fold_left (pstep sb) pre p) o vec Ho ltac:(rewrite Esb; discriminate) ltac:(rewrite Esb; right; left; reflexivity)).
  cbv zeta in V. rewrite V, Et. unfold eqs_inv in I.
  assert (T : sb_type sb = NEUMANN) by (now rewrite Esb). rewrite T in I. unfold neu_eq in I. destruct I as [-> ->].
  rewrite Ed. rewrite Es.
  assert (X : sb_normal sb = normal_of loc /\ sb_value sb = v) by (rewrite Esb; split; reflexivity).
  destruct X as [-> ->]. field. split; [lra|]. unfold normal_of. destruct (_ =? _)%Z; lra.
Qed.

Lemma convective_lemma m D r loc f c sb pre vold dt vnew sb1 sb2 : mfacts m D -> (0 <= f < m_dim m)%Z -> (0 <= loc < m_dim m * 2)%Z ->
  (0 <= r < nranks D)%Z -> createSingleBoundary m D r loc f c CONVECTIVE = Ok sb ->
  dt <> 0 ->
  run_bops m D r pre sb = Ok sb1 ->
  run_bops m D r [OpEqs vold dt; OpVals vnew] sb1 = Ok sb2 ->
  forall q old new, In (st_of q, old) (sb_points sb1) -> In (st_of q, new) (sb_points sb2) ->
  let t := inner_of (m_n m f) loc q in
  let gap := crd m f (loc_dir loc) (pc q (loc_dir loc)) - crd m f (loc_dir loc) (pc t (loc_dir loc)) in
  exists id, nthZ (packed_layout (m_dim m) D) id = Some (f, t) /\
  (loc_dir loc = f -> (gi_value new - gi_value old) / dt + c * ((gi_value old - vold id) / gap) = 0) /\
  (loc_dir loc <> f -> ((gi_value new + vnew id) / 2 - (gi_value old + vold id) / 2) / dt
                       + c * ((gi_value old - vold id) / gap) = 0).
Proof.
  intros F Hf Hl Hr Hc Hdt Hrun1 Hrun2 q old new Hin1 Hin2 t gap.
  destruct (history_ok _ _ _ _ _ _ _ pre _ F Hf Hl Hr (or_intror (or_intror eq_refl)) Hc) as [E Esb].
  pose proof (gl_tids_local m D r f loc F Hf Hl Hr) as TL.
  assert (ND : NoDup (map fst (sb_points sb))) by (rewrite Esb; apply gl_points_NoDup; auto).
  assert (E2 : run_bops m D r (pre ++ [OpEqs vold dt; OpVals vnew]) sb = Ok sb2).
  { unfold run_bops in *. rewrite foldM_app, Hrun1. exact Hrun2. }
  rewrite run_bops_ok in E2 by (rewrite Esb; exact TL). injection E2 as <-.
  rewrite E in Hrun1. injection Hrun1 as <-. cbn [with_points sb_points] in Hin1, Hin2.
  apply (In_map_snd (fun p => fold_left (pstep sb) pre p)) in Hin1. destruct Hin1 as (p & Hin1 & ->).
  apply (In_map_snd (fun p => fold_left (pstep sb) (pre ++ _) p)) in Hin2. destruct Hin2 as (p' & Hin2 & ->).
  assert (p' = p). { pose proof (mget_In _ _ _ ND Hin1). pose proof (mget_In _ _ _ ND Hin2). congruence. } subst p'.
  assert (Hp : In (st_of q, p) (gl_points m D r f loc)) by (rewrite Esb in Hin1; exact Hin1).
  destruct (gl_points_info m D r f loc q p F Hf Hl Hr Hp) as (_ & _ & N & _ & _ & _ & Pd & Es & _).
  exists (gi_tid p). split; [exact N|].
  unfold gap. unfold t. rewrite Es.
  rewrite fold_left_app. cbn [fold_left pstep].
  set (po := fold_left (pstep sb) pre p).
  assert (Et : gi_tid po = gi_tid p) by (apply geom_tid, psteps_geom).
  assert (Ed : gi_dL po = gi_dL p) by (apply geom_dL, psteps_geom).
  unfold updateEqsKernel. replace (sb_type sb) with CONVECTIVE by (now rewrite Esb).
  unfold kernelConvective.
  replace (sb_loc sb / 2 =? sb_field sb)%Z with (loc_dir loc =? f)%Z by (rewrite Esb; reflexivity).
  replace (sb_normal sb) with (normal_of loc) by (now rewrite Esb). replace (sb_value sb) with c by (now rewrite Esb).
  assert (Nn : normal_of loc * normal_of loc = 1) by (unfold normal_of; destruct (_ =? _)%Z; lra).
  assert (Nz : normal_of loc <> 0) by (intros Z0; rewrite Z0 in Nn; lra).
  assert (Ni : / (normal_of loc) = normal_of loc) by (apply (Rmult_eq_reg_l (normal_of loc)); auto; rewrite Rinv_r by auto; lra).
  destruct (Z.eqb_spec (loc_dir loc) f) as [Hs|Hs]; split; intros Hs'; try contradiction;
    cbn; rewrite Et, Ed; unfold Rdiv; rewrite Rinv_mult, Ni; field; split; lra.
Qed.

Lemma a0_lemma m D r loc f v ty sb ops sb' : mfacts m D -> (0 <= f < m_dim m)%Z -> (0 <= loc < m_dim m * 2)%Z ->
  (0 <= r < nranks D)%Z -> ghosted_type ty -> createSingleBoundary m D r loc f v ty = Ok sb ->
  (exists v0, In (OpICs v0) ops) -> run_bops m D r ops sb = Ok sb' ->
  forall q info, In (st_of q, info) (sb_points sb') ->
  gi_a0 info = match ty with NEUMANN => 1 | _ => if (loc_dir loc =? f)%Z then 0 else -1 end.
Proof.
  intros F Hf Hl Hr Ht Hc Hics Hrun q info Hin.
  destruct (history_ok _ _ _ _ _ _ _ ops _ F Hf Hl Hr Ht Hc) as [E Esb].
  rewrite E in Hrun. injection Hrun as <-. cbn [with_points sb_points] in Hin.
  apply (In_map_snd (fun p => fold_left (pstep sb) ops p)) in Hin. destruct Hin as (p & Hin & ->).
  pose proof (steps_inv sb ops p (or_intror Hics)) as I. unfold eqs_inv in I.
  assert (X : sb_type sb = ty /\ (sb_loc sb / 2 =? sb_field sb)%Z = (loc_dir loc =? f)%Z) by (rewrite Esb; split; reflexivity).
  destruct X as [X1 X2]. rewrite X1 in I. unfold dir_eq, con_eq in I. rewrite X2 in I.
  destruct Ht as [->|[->| ->]]; [destruct (_ =? _)%Z; tauto|apply I|exact I].
Qed.

Lemma convective_ics m D r loc f c sb v0 sb' : mfacts m D -> (0 <= f < m_dim m)%Z -> (0 <= loc < m_dim m * 2)%Z ->
  (0 <= r < nranks D)%Z -> createSingleBoundary m D r loc f c CONVECTIVE = Ok sb ->
  run_bops m D r [OpICs v0] sb = Ok sb' ->
  forall q info, In (st_of q, info) (sb_points sb') ->
  exists id, nthZ (packed_layout (m_dim m) D) id = Some (f, inner_of (m_n m f) loc q) /\ gi_value info = v0 id.
Proof.
  intros F Hf Hl Hr Hc Hrun q info Hin.
  destruct (history_ok _ _ _ _ _ _ _ [OpICs v0] _ F Hf Hl Hr (or_intror (or_intror eq_refl)) Hc) as [E Esb].
  rewrite E in Hrun. injection Hrun as <-. cbn [with_points sb_points] in Hin.
  apply (In_map_snd (fun p => fold_left (pstep sb) [OpICs v0] p)) in Hin. destruct Hin as (p & Hin & ->).
  assert (Hp : In (st_of q, p) (gl_points m D r f loc)) by (rewrite Esb in Hin; exact Hin).
  destruct (gl_points_info m D r f loc q p F Hf Hl Hr Hp) as (_ & _ & N & _).
  exists (gi_tid p). split; [exact N|]. cbn [fold_left pstep]. unfold setGhostICsKernel.
  replace (sb_type sb) with CONVECTIVE by (now rewrite Esb). unfold kernelConvective. destruct (_ =? _)%Z; reflexivity.
Qed.

Lemma run_keys m D r loc f v ty ops sb : mfacts m D -> (0 <= f < m_dim m)%Z -> (0 <= loc < m_dim m * 2)%Z ->
  (0 <= r < nranks D)%Z -> ghosted_type ty -> createSingleBoundary m D r loc f v ty = Ok sb ->
  exists sb', run_bops m D r ops sb = Ok sb' /\ map fst (sb_points sb') = map fst (sb_points sb).
Proof.
  intros F Hf Hl Hr Ht Hc. destruct (history_ok _ _ _ _ _ _ _ ops _ F Hf Hl Hr Ht Hc) as [E _].
  eexists. split; [exact E|]. cbn. apply map_fst_map_snd.
Qed.

(** createBoundary *)
Lemma mapM_inv {A B} (f : A -> res B) l ys : mapM f l = Ok ys ->
  lenZ ys = lenZ l /\ forall i x, nthZ l i = Some x -> exists y, f x = Ok y /\ nthZ ys i = Some y.
Proof.
  revert ys. induction l as [|a t IH]; intros ys H.
  - injection H as <-. split; [reflexivity|]. intros i x Hx. apply nthZ_Some_range in Hx. cbn in Hx. lia.
  - cbn [mapM] in H. apply bind_ok_inv in H. destruct H as (y & Ey & H). apply bind_ok_inv in H. destruct H as (ys' & E' & H).
    injection H as <-. destruct (IH _ E') as [L N]. split; [rewrite !lenZ_cons; lia|].
    intros i x Hx. pose proof (nthZ_Some_range _ _ _ Hx). destruct (Z.eq_dec i 0) as [-> |Hi].
    + rewrite nthZ_cons_0 in Hx. injection Hx as <-. exists y. auto.
    + rewrite nthZ_cons_pos in Hx by lia. rewrite nthZ_cons_pos by lia. apply N. exact Hx.
Qed.

Lemma mapM_ex {A B} (f : A -> res B) l : (forall x, In x l -> exists y, f x = Ok y) -> exists ys, mapM f l = Ok ys.
Proof.
  induction l as [|a t IH]; intros H; [eexists; reflexivity|]. cbn [mapM].
  destruct (H a (or_introl eq_refl)) as [y ->]. destruct IH as [ys ->]; [intros; apply H; now right|]. eexists; reflexivity.
Qed.

Lemma create_boundary_lemma m D r types values : mfacts m D -> (0 <= r < nranks D)%Z ->
  (forall f loc, (0 <= f < m_dim m)%Z -> (0 <= loc < m_dim m * 2)%Z -> types f loc <> NOBC) ->
  exists bds, createBoundary m D r types values = Ok bds /\
  forall f loc, (0 <= f < m_dim m)%Z -> (0 <= loc < m_dim m * 2)%Z ->
  exists row sb, nthZ bds f = Some row /\ nthZ row loc = Some sb /\
    createSingleBoundary m D r loc f (values f loc) (types f loc) = Ok sb.
Proof.
  intros F Hr Ht.
  assert (One : forall f loc, (0 <= f < m_dim m)%Z -> (0 <= loc < m_dim m * 2)%Z ->
    exists sb, createSingleBoundary m D r loc f (values f loc) (types f loc) = Ok sb).
  { intros f loc Hf Hl. specialize (Ht f loc Hf Hl). destruct (types f loc) eqn:E; [contradiction| | | |];
      try (eexists; reflexivity); (eexists; rewrite create_ok by (auto; unfold ghosted_type; tauto); reflexivity). }
  destruct (mapM_ex (fun f => mapM (fun b => createSingleBoundary m D r b f (values f b) (types f b))
                      (zrange 0 (m_dim m * 2))) (zrange 0 (m_dim m))) as [bds E].
  { intros f Hf. apply zrange_In in Hf. apply mapM_ex. intros b Hb. apply zrange_In in Hb. now apply One. }
  exists bds. split; [exact E|]. intros f loc Hf Hl. destruct (mapM_inv _ _ _ E) as [_ N].
  destruct (N f f) as (row & Erow & Nrow). { rewrite nthZ_zrange by lia. reflexivity. }
  destruct (mapM_inv _ _ _ Erow) as [_ N2].
  destruct (N2 loc loc) as (sb & Esb & Nsb). { rewrite nthZ_zrange by lia. reflexivity. }
  eauto 6.
Qed.
