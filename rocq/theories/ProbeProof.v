(** Lemmas about point location and linear interpolation. *)
From Coq Require Import ZifyBool.
From Verif Require Import Prelude ZSum RSum TypesModel GridModel GridSpec GridProof MeshProof IndexModel IndexSpec IndexProof
  BoundaryModel BoundarySpec BoundaryProof OperatorModel OperatorSpec OperatorProof MatModel ConvModel ConvProof DeltaModel ProbeModel ProbeSpec.
Local Open Scope R_scope.

(** * Searches *)
Lemma lower_bound_map (c : Z -> R) b v : forall k a, (b - a <= Z.of_nat k)%Z -> (forall i j, (a <= i)%Z -> (i < j)%Z -> (j < b)%Z -> c i < c j) ->
  let p := lower_boundR (map c (zrange a b)) v in
  (0 <= p)%Z /\ (a <= b -> a + p <= b)%Z /\ forall i, (a <= i < b)%Z -> ((i < a + p)%Z <-> c i < v).
Proof.
  induction k as [|k IH]; intros a Hk Hc; cbv zeta.
  - rewrite zrange_nil by lia. cbn [map lower_boundR]. split; [lia|]. split; intros; lia.
  - destruct (Z_lt_dec a b) as [Hab|Hab].
    2:{ rewrite zrange_nil by lia. cbn [map lower_boundR]. split; [lia|]. split; intros; lia. }
    rewrite zrange_cons by lia. cbn [map lower_boundR].
    destruct (IH (a + 1)%Z ltac:(lia) ltac:(intros; apply Hc; lia)) as (A & B & C).
    destruct (Rlt_dec (c a) v) as [Hv|Hv].
    + split; [lia|]. split; [lia|]. intros i Hi. destruct (Z.eq_dec i a) as [->|Hne]; [split; [auto|lia]|].
      rewrite <- (C i ltac:(lia)). lia.
    + split; [lia|]. split; [lia|]. intros i Hi. split; [lia|]. intros Hlt. exfalso.
      destruct (Z.eq_dec i a) as [->|Hne]; [lra|]. specialize (Hc a i ltac:(lia) ltac:(lia) ltac:(lia)). lra.
Qed.

Lemma upper_bound_mapR (c : Z -> R) b v : forall k a, (b - a <= Z.of_nat k)%Z -> (forall i j, (a <= i)%Z -> (i < j)%Z -> (j < b)%Z -> c i < c j) ->
  let p := upper_boundR (map c (zrange a b)) v in
  (0 <= p)%Z /\ (a <= b -> a + p <= b)%Z /\ forall i, (a <= i < b)%Z -> ((i < a + p)%Z <-> c i <= v).
Proof.
  induction k as [|k IH]; intros a Hk Hc; cbv zeta.
  - rewrite zrange_nil by lia. cbn [map upper_boundR]. split; [lia|]. split; intros; lia.
  - destruct (Z_lt_dec a b) as [Hab|Hab].
    2:{ rewrite zrange_nil by lia. cbn [map upper_boundR]. split; [lia|]. split; intros; lia. }
    rewrite zrange_cons by lia. cbn [map upper_boundR].
    destruct (IH (a + 1)%Z ltac:(lia) ltac:(intros; apply Hc; lia)) as (A & B & C).
    destruct (Rlt_dec v (c a)) as [Hv|Hv].
    + split; [lia|]. split; [lia|]. intros i Hi. split; [lia|]. intros Hlt. exfalso.
      destruct (Z.eq_dec i a) as [->|Hne]; [lra|]. specialize (Hc a i ltac:(lia) ltac:(lia) ltac:(lia)). lra.
    + split; [lia|]. split; [lia|]. intros i Hi. destruct (Z.eq_dec i a) as [->|Hne]; [split; [lra|lia]|].
      rewrite <- (C i ltac:(lia)). lia.
Qed.

(** Pressure gridlines increase. *)
Lemma pcoord_incr m D d i j : mesh_setup m D -> (0 <= d < m_dim m)%Z -> (0 <= i)%Z -> (i < j)%Z -> (j < m_n m 3 d)%Z -> crd m 3 d i < crd m 3 d j.
Proof.
  intros Hs Hd. pose proof Hs as (mn & mx & per & w & np & Hg & Hm & _).
  destruct (mesh_pressure _ _ _ _ _ _ Hm d Hd) as (En & Hc & _). rewrite En.
  destruct (axis_facts _ _ _ _ Hg d Hd) as (HN & Hp & _).
  assert (S1 : forall k, (0 <= k)%Z -> (k + 1 < lenZ (w d))%Z -> crd m 3 d k < crd m 3 d (k + 1)).
  { intros k Hk Hk2. unfold crd. rewrite (proj1 (Hc k ltac:(lia))), (proj1 (Hc (k + 1)%Z ltac:(lia))). cbn [ok_or]. unfold ctr.
    rewrite (vtx_S (mn d) (w d) k) by lia. rewrite (vtx_S (mn d) (w d) (k + 1)) by lia. rewrite (vtx_S (mn d) (w d) k) by lia.
    pose proof (positive_wd (w d) k Hp ltac:(lia)). pose proof (positive_wd (w d) (k + 1)%Z Hp ltac:(lia)). lra. }
  intros Hi Hij Hj. replace j with (i + 1 + (j - i - 1))%Z in * by lia. set (e := (j - i - 1)%Z) in *. assert (He : (0 <= e)%Z) by lia. clearbody e. clear Hij.
  revert Hj. pattern e. apply (zind_up _ 0%Z); [| |exact He].
  - intros Hj. rewrite Z.add_0_r in *. apply S1; lia.
  - intros e' He' IH Hj. replace (i + 1 + (e' + 1))%Z with (i + 1 + e' + 1)%Z in * by lia.
    apply Rlt_trans with (crd m 3 d (i + 1 + e')); [apply IH; lia|apply S1; lia].
Qed.

Definition fieldok (m : mesh) (f : Z) : Prop := (0 <= f < m_dim m \/ f = 3)%Z.

Lemma crd_incr m D f d i j : mesh_setup m D -> fieldok m f -> (0 <= d < m_dim m)%Z -> (0 <= i)%Z -> (i < j)%Z -> (j < m_n m f d)%Z -> crd m f d i < crd m f d j.
Proof.
  intros Hs [Hf| ->] Hd Hi Hij Hj; [apply (mf_incr _ _ (setup_facts _ _ Hs)); auto; lia|eapply pcoord_incr; eauto].
Qed.
Lemma crd_read m D f d i : mesh_setup m D -> fieldok m f -> (0 <= d < m_dim m)%Z -> (0 <= i < m_n m f d)%Z -> m_coord m f d i = Ok (crd m f d i).
Proof.
  intros Hs [Hf| ->] Hd Hi; [apply (mf_coord _ _ (setup_facts _ _ Hs)); auto; lia|apply (mf_pcoord _ _ (setup_facts _ _ Hs)); auto].
Qed.
Lemma gridline_eq m D f d : mesh_setup m D -> fieldok m f -> (0 <= d < m_dim m)%Z -> gridline m f d = Ok (map (crd m f d) (zrange 0 (m_n m f d))).
Proof. intros Hs Hf Hd. apply mapM_ok. intros i Hi. apply zrange_In in Hi. eapply crd_read; eauto. Qed.

Lemma lower_line m D f d v : mesh_setup m D -> fieldok m f -> (0 <= d < m_dim m)%Z ->
  let p := lower_boundR (map (crd m f d) (zrange 0 (m_n m f d))) v in
  (0 <= p <= m_n m f d)%Z /\ forall i, (0 <= i < m_n m f d)%Z -> ((i < p)%Z <-> crd m f d i < v).
Proof.
  intros Hs Hf Hd. pose proof (mf_np _ _ (setup_facts _ _ Hs) f d Hf ltac:(destruct (mf_dim _ _ (setup_facts _ _ Hs)); lia)).
  destruct (lower_bound_map (crd m f d) (m_n m f d) v (Z.to_nat (m_n m f d)) 0 ltac:(lia)) as (A & B & C).
  { intros i j Hi Hij Hj. eapply crd_incr; eauto. }
  cbv zeta. split; [lia|]. intros i Hi. rewrite <- (C i Hi). lia.
Qed.
Lemma upper_line m D f d v : mesh_setup m D -> fieldok m f -> (0 <= d < m_dim m)%Z ->
  let p := upper_boundR (map (crd m f d) (zrange 0 (m_n m f d))) v in
  (0 <= p <= m_n m f d)%Z /\ forall i, (0 <= i < m_n m f d)%Z -> ((i < p)%Z <-> crd m f d i <= v).
Proof.
  intros Hs Hf Hd. pose proof (mf_np _ _ (setup_facts _ _ Hs) f d Hf ltac:(destruct (mf_dim _ _ (setup_facts _ _ Hs)); lia)).
  destruct (upper_bound_mapR (crd m f d) (m_n m f d) v (Z.to_nat (m_n m f d)) 0 ltac:(lia)) as (A & B & C).
  { intros i j Hi Hij Hj. eapply crd_incr; eauto. }
  cbv zeta. split; [lia|]. intros i Hi. rewrite <- (C i Hi). lia.
Qed.

(** * Ownership of a point *)
Lemma pvec_rd m loc d : (m_dim m = 2 \/ m_dim m = 3)%Z -> (0 <= d < m_dim m)%Z -> rd (pvec m loc) d = Ok (loc d).
Proof.
  intros Hdm Hd. apply rd_Ok. unfold pvec. rewrite nthZ_map, nthZ_zrange by lia. cbn [option_map]. rewrite Z.add_0_l.
  destruct (Z.ltb_spec d (m_dim m)); [reflexivity|lia].
Qed.

Section Owner.
Context (m : mesh) (D : dec) (Hs : mesh_setup m D) (f : Z) (Hf : (0 <= f < m_dim m)%Z).
Let F := setup_facts m D Hs.
Let Hdm := mf_dim _ _ F.

Lemma local_range r d : (0 <= r < nranks D)%Z -> (0 <= d < 3)%Z -> (0 <= d_bg D f d r)%Z /\ (d_bg D f d r <= d_ed D f d r <= m_n m f d)%Z.
Proof. intros Hr Hd. pose proof (d_range D (m_n m f) f d r (mf_dec _ _ F f (or_introl Hf)) Hd Hr). lia. Qed.

Lemma on_proc_dec r loc : (0 <= r < nranks D)%Z -> exists b, isPointOnLocalProc m D r f (pvec m loc) = Ok b /\
  (b = true <-> forall d, (0 <= d < m_dim m)%Z -> crd m f d (d_bg D f d r) <= loc d < crd m f d (d_ed D f d r)).
Proof.
  intros Hr. unfold isPointOnLocalProc.
  set (go := on_dirs m D r f (pvec m loc)).
  assert (G : forall ds, (forall d, In d ds -> (0 <= d < m_dim m)%Z) -> exists b, go ds = Ok b /\
     (b = true <-> forall d, In d ds -> crd m f d (d_bg D f d r) <= loc d < crd m f d (d_ed D f d r))).
  { induction ds as [|d t IH]; intros Hds.
    - exists true. split; [reflexivity|]. split; [intros _ d []|auto].
    - pose proof (Hds d (or_introl eq_refl)) as Hd. pose proof (local_range r d Hr ltac:(destruct Hdm; lia)) as Lr.
      unfold go. cbn [on_dirs]. fold go. rewrite pvec_rd by auto. cbn [bind]. rewrite (mf_coord _ _ F f d (d_bg D f d r)) by (auto; lia). cbn [bind].
      destruct (Rlt_dec (loc d) _) as [H1|H1].
      { exists false. split; [reflexivity|]. split; [discriminate|]. intros X. specialize (X d (or_introl eq_refl)). lra. }
      rewrite (mf_coord _ _ F f d (d_ed D f d r)) by (auto; lia). cbn [bind].
      destruct (Rle_dec _ (loc d)) as [H2|H2].
      { exists false. split; [reflexivity|]. split; [discriminate|]. intros X. specialize (X d (or_introl eq_refl)). lra. }
      destruct (IH ltac:(intros; apply Hds; now right)) as (b & E & Hb). exists b. split; [exact E|]. rewrite Hb. split.
      + intros X d' [<-|Hd']; [lra|auto].
      + intros X d' Hd'. apply X. now right. }
  destruct (G (zrange 0 (m_dim m))) as (b & E & Hb); [intros d Hd; now apply zrange_In in Hd|].
  exists b. split; [exact E|]. rewrite Hb. split; intros X d Hd; apply X; [now apply zrange_In|now apply zrange_In in Hd].
Qed.

(** The gridline interval that holds a coordinate. *)
Lemma locate d x : (0 <= d < m_dim m)%Z -> crd m f d 0 <= x < crd m f d (m_n m f d) ->
  exists i, (0 <= i < m_n m f d)%Z /\ crd m f d i <= x < crd m f d (i + 1).
Proof.
  intros Hd Hx. pose proof (mf_np _ _ F f d (or_introl Hf) ltac:(destruct Hdm; lia)) as Hn.
  assert (G : forall k, (0 <= k)%Z -> (k <= m_n m f d)%Z -> x < crd m f d k -> exists i, (0 <= i < k)%Z /\ crd m f d i <= x < crd m f d (i + 1)).
  { intros k Hk. pattern k. apply (zind_up _ 0%Z); [| |exact Hk].
    - intros _ Hlt. lra.
    - intros e He IH Hle Hlt. destruct (Rlt_dec x (crd m f d e)) as [H1|H1].
      + destruct (IH ltac:(lia) H1) as (i & Hi & Hx'). exists i. split; [lia|auto].
      + exists e. split; [lia|lra]. }
  destruct (G (m_n m f d) ltac:(lia) ltac:(lia) (proj2 Hx)) as (i & Hi & Hx'). eauto.
Qed.
Lemma crd_mono d i j : (0 <= d < m_dim m)%Z -> (-1 <= i)%Z -> (i <= j)%Z -> (j <= m_n m f d)%Z -> crd m f d i <= crd m f d j.
Proof.
  intros Hd Hi Hij Hj. destruct (Z.eq_dec i j) as [->|Hne]; [lra|]. left. apply (mf_incr _ _ F); auto; lia.
Qed.
Lemma crd_lt_inv d i j : (0 <= d < m_dim m)%Z -> (-1 <= i <= m_n m f d)%Z -> (-1 <= j <= m_n m f d)%Z -> crd m f d i < crd m f d j -> (i < j)%Z.
Proof. intros Hd Hi Hj Hlt. destruct (Z_lt_dec i j) as [H|H]; [auto|]. pose proof (crd_mono d j i Hd ltac:(lia) ltac:(lia) ltac:(lia)). lra. Qed.

Lemma flat_local r : (0 <= r < nranks D)%Z -> m_dim m = 2%Z -> d_bg D f 2 r = 0%Z /\ d_ed D f 2 r = 1%Z.
Proof.
  intros Hr E. destruct (mf_flat _ _ F f (or_introl Hf) E) as (En & _).
  pose proof (d_range D (m_n m f) f 2 r (mf_dec _ _ F f (or_introl Hf)) ltac:(lia) Hr) as H.
  assert (P : (1 <= d_m D f 2 r)%Z).
  { unfold d_m. rewrite (mf_split _ _ F f 2 (rcoord D 2 r) (or_introl Hf) ltac:(lia)).
    pose proof (mf_np _ _ F f 2%Z (or_introl Hf) ltac:(lia)) as Hnp. rewrite En in *. assert (ds_np D 2 = 1)%Z as -> by lia.
    unfold dmda_l. change (1 / 1)%Z with 1%Z. destruct (_ >? _)%Z; lia. }
  unfold d_ed in *. lia.
Qed.

Lemma owner_point loc : (forall d, (0 <= d < m_dim m)%Z -> crd m f d 0 <= loc d < crd m f d (m_n m f d)) ->
  exists p, interior (m_n m f) p /\ (forall d, (0 <= d < m_dim m)%Z -> crd m f d (pc p d) <= loc d < crd m f d (pc p d + 1)) /\
    forall r, (0 <= r < nranks D)%Z -> (isPointOnLocalProc m D r f (pvec m loc) = Ok true <-> In p (local_points D f r)).
Proof.
  intros Hl. destruct (locate 0 (loc 0%Z) ltac:(destruct Hdm; lia) (Hl 0%Z ltac:(destruct Hdm; lia))) as (i & Hi & Hx).
  destruct (locate 1 (loc 1%Z) ltac:(destruct Hdm; lia) (Hl 1%Z ltac:(destruct Hdm; lia))) as (j & Hj & Hy).
  assert (exists k, (0 <= k < m_n m f 2)%Z /\ (m_dim m = 2%Z -> k = 0%Z) /\ (m_dim m = 3%Z -> crd m f 2 k <= loc 2%Z < crd m f 2 (k + 1))) as (k & Hk & Hk2 & Hz).
  { destruct Hdm as [E|E].
    - exists 0%Z. destruct (mf_flat _ _ F f (or_introl Hf) E) as (-> & _). split; [lia|]. split; [auto|lia].
    - destruct (locate 2 (loc 2%Z) ltac:(lia) (Hl 2%Z ltac:(lia))) as (k & Hk & Hz). exists k. split; [lia|]. split; [lia|auto]. }
  exists (i, j, k).
  assert (Hc : forall d, (0 <= d < m_dim m)%Z -> (0 <= pc (i, j, k) d < m_n m f d)%Z /\ crd m f d (pc (i, j, k) d) <= loc d < crd m f d (pc (i, j, k) d + 1)).
  { intros d Hd. assert (d = 0 \/ d = 1 \/ d = 2)%Z as [->|[->| ->]] by (destruct Hdm; lia);
      [change (pc (i, j, k) 0) with i|change (pc (i, j, k) 1) with j|change (pc (i, j, k) 2) with k]; auto.
    assert (m_dim m = 3)%Z by (destruct Hdm; lia). auto. }
  split; [unfold interior; auto|]. split; [intros d Hd; apply Hc; auto|].
  intros r Hr. destruct (on_proc_dec r loc Hr) as (b & E & Hb). rewrite E.
  assert (Hp : In (i, j, k) (local_points D f r) <-> b = true).
  { rewrite Hb, local_points_pc. split.
    - intros X d Hd. specialize (X d ltac:(destruct Hdm; lia)). destruct (Hc d Hd) as [Hc1 Hc2].
      pose proof (local_range r d Hr ltac:(destruct Hdm; lia)).
      pose proof (crd_mono d (d_bg D f d r) (pc (i, j, k) d) Hd ltac:(lia) ltac:(lia) ltac:(lia)).
      pose proof (crd_mono d (pc (i, j, k) d + 1) (d_ed D f d r) Hd ltac:(lia) ltac:(lia) ltac:(lia)). lra.
    - intros X d Hd. destruct (Z_lt_dec d (m_dim m)) as [Hd2|Hd2].
      + specialize (X d ltac:(lia)). destruct (Hc d ltac:(lia)) as [Hc1 Hc2]. pose proof (local_range r d Hr Hd).
        pose proof (crd_lt_inv d (d_bg D f d r) (pc (i, j, k) d + 1) ltac:(lia) ltac:(lia) ltac:(lia) ltac:(lra)).
        pose proof (crd_lt_inv d (pc (i, j, k) d) (d_ed D f d r) ltac:(lia) ltac:(lia) ltac:(lia) ltac:(lra)). lia.
      + assert (m_dim m = 2 /\ d = 2)%Z as [E2 ->] by (destruct Hdm; lia). destruct (flat_local r Hr E2) as [-> ->].
        change (pc (i, j, k) 2) with k. rewrite (Hk2 E2). lia. }
  rewrite Hp. split; [intros X; injection X as ->; auto|now intros ->].
Qed.

Lemma not_owned loc r : (0 <= r < nranks D)%Z -> ~ (forall d, (0 <= d < m_dim m)%Z -> crd m f d 0 <= loc d < crd m f d (m_n m f d)) ->
  isPointOnLocalProc m D r f (pvec m loc) = Ok false.
Proof.
  intros Hr Hn. destruct (on_proc_dec r loc Hr) as (b & E & Hb). rewrite E. destruct b; [|reflexivity]. exfalso. apply Hn.
  intros d Hd. pose proof (proj1 Hb eq_refl d Hd) as X. pose proof (local_range r d Hr ltac:(destruct Hdm; lia)).
  pose proof (crd_mono d 0 (d_bg D f d r) Hd ltac:(lia) ltac:(lia) ltac:(lia)).
  pose proof (crd_mono d (d_ed D f d r) (m_n m f d) Hd ltac:(lia) ltac:(lia) ltac:(lia)). lra.
Qed.
End Owner.
