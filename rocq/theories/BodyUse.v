(** Proofs about integrated forces, host cells and body files. *)
From Coq Require Import String Ascii Reals Lra Permutation.
From Verif Require Import Prelude ZSum RSum TypesModel GridModel GridSpec GridProof MeshProof IndexModel IndexSpec IndexProof BodyModel BodySpec BodyProof.
Local Open Scope Z_scope.

(** * Integrated forces *)
Lemma flat_map_inj {A} (f g : Z -> list A) l :
  (forall r, In r l -> lenZ (f r) = lenZ (g r)) -> flat_map f l = flat_map g l -> forall r, In r l -> f r = g r.
Proof.
  induction l as [|a t IH]; intros HL E r Hr; [destruct Hr|]. cbn [flat_map] in E.
  assert (Ha : f a = g a /\ flat_map f t = flat_map g t).
  { assert (L : length (f a) = length (g a)) by (specialize (HL a (or_introl eq_refl)); unfold lenZ in HL; lia).
    revert E L. generalize (f a) (g a) (flat_map f t) (flat_map g t).
    induction l as [|x u IHu]; intros [|y v] p q E L; cbn in *; try discriminate; auto.
    injection E as -> E. injection L as L. destruct (IHu _ _ _ E L) as [-> ->]. auto. }
  destruct Ha as [Ha Ht]. destruct Hr as [<-|Hr]; [exact Ha|]. apply IH; auto. intros; apply HL; now right.
Qed.

Lemma skipn_flat_map {A} (g : Z -> list A) b n : 0 <= b <= n ->
  skipn (Z.to_nat (isum (fun q => lenZ (g q)) 0 b)) (flat_map g (zrange 0 n)) = flat_map g (zrange b n).
Proof.
  intros H. rewrite (zrange_app 0 b n) by lia. rewrite flat_map_app_f, <- flat_map_lenZ.
  unfold lenZ. rewrite Nat2Z.id, skipn_app, skipn_all, Nat.sub_diag. reflexivity.
Qed.

Definition fcomp (force : Z -> Z -> Z -> R) (u : Z * Z * Z) : R := let '(b, i, c) := u in force b i c.

Section Forces.
Context (size dim : Z) (bodies : list body) (Hok : pack_ok size dim bodies).
Context (f : Z -> list R) (force : Z -> Z -> Z -> R).
Context (Hs : local_sizes size dim bodies f) (Hf : holds_forces size dim bodies f force).

Lemma rank_forces r : 0 <= r < size -> f r = map (fcomp force) (body_rank dim bodies r).
Proof.
  intros Hr. unfold holds_forces, whole in Hf. rewrite body_layout_eq in Hf.
  apply (flat_map_inj f (fun r => map (fcomp force) (body_rank dim bodies r)) (zrange 0 size)).
  - intros q Hq. apply zrange_In in Hq. rewrite lenZ_map, Hs, (body_rank_len size) by auto. reflexivity.
  - rewrite Hf. rewrite !flat_map_concat_map, concat_map, map_map. reflexivity.
  - now apply zrange_In.
Qed.

Lemma fold_firstn r b : 0 <= r < size -> 0 <= b < lenZ bodies ->
  fold_left (fun s bo' => s + sb_nLclAllProcs dim bo' r) (firstn (Z.to_nat b) bodies) 0
  = isum (fun q => lenZ (body_part dim bodies r q)) 0 b.
Proof.
  intros Hr Hb. rewrite fold_cnt. rewrite Z.add_0_l.
  assert (L : lenZ (firstn (Z.to_nat b) bodies) = b) by (unfold lenZ in *; rewrite firstn_length; lia).
  rewrite L. apply isum_ext. intros q Hq. rewrite (body_part_len size) by auto. unfold cnt_of.
  replace (nthZ bodies q) with (nthZ (firstn (Z.to_nat b) bodies) q); [reflexivity|].
  rewrite <- (firstn_skipn (Z.to_nat b) bodies) at 2. rewrite nthZ_app_l by lia. reflexivity.
Qed.

Lemma access_ok r b bo : 0 <= r < size -> nthZ bodies b = Some bo ->
  access dim bodies f b r = Ok (map (fcomp force) (body_block dim bo b r)).
Proof.
  intros Hr E. pose proof (nthZ_Some_range _ _ _ E) as Hb. unfold access, rd. rewrite E. cbn [bind]. f_equal.
  rewrite fold_firstn by auto. rewrite rank_forces by auto. unfold body_rank.
  rewrite skipn_map, skipn_flat_map by lia. rewrite (zrange_cons b) by lia. cbn [flat_map].
  replace (body_part dim bodies r b) with (body_block dim bo b r) by (unfold body_part; now rewrite E).
  destruct Hok as (_ & Hd & F). destruct (pack_body size dim bodies Hok b bo E) as [Hp _].
  rewrite firstn_map, firstn_app.
  assert (L : Z.to_nat (sb_nLclAllProcs dim bo r) = length (body_block dim bo b r)).
  { unfold sb_nLclAllProcs. rewrite <- (body_block_len dim bo b r) by (try apply Hp; lia). unfold lenZ. lia. }
  rewrite L, Nat.sub_diag, firstn_all. cbn [firstn]. now rewrite app_nil_r.
Qed.

Local Open Scope R_scope.
Lemma inner_forces (a v : Z -> R) (rdv : Z -> res R) q : (0 <= q <= dim)%Z -> (forall c, (0 <= c < dim)%Z -> rdv c = Ok (v c)) ->
  foldM (fun acc dof => do x <- rdv dof; do y <- rd acc dof; wr acc dof (y - x)) (zrange 0 q) (map a (zrange 0 dim))
  = Ok (map (fun c => if (c <? q)%Z then a c - v c else a c) (zrange 0 dim)).
Proof.
  intros Hq Hv. destruct Hq as [H0 Hq]. revert Hq. pattern q. apply (zind_up _ 0%Z); auto.
  - intros _. rewrite (zrange_nil 0 0) by lia. cbn [foldM]. f_equal. apply map_ext_in. intros c Hc. apply zrange_In in Hc.
    destruct (Z.ltb_spec c 0); [lia|reflexivity].
  - intros k Hk IH Hq. rewrite (zrange_app 0 k (k + 1)) by lia. rewrite foldM_app, IH by lia. cbn [bind].
    rewrite (zrange_cons k), (zrange_nil (k + 1)) by lia. cbn [foldM]. rewrite Hv by lia. cbn [bind].
    unfold rd. rewrite nthZ_map, nthZ_zrange by lia. cbn [option_map bind].
    destruct (wr_ok (map (fun c => if (c <? k)%Z then a c - v c else a c) (zrange 0 dim)) k
                ((if (0 + k <? k)%Z then a (0 + k)%Z - v (0 + k)%Z else a (0 + k)%Z) - v k)) as (l' & E & L & N & O).
    { rewrite lenZ_map, zrange_lenZ by lia. lia. }
    rewrite E. cbn [bind]. f_equal. apply nthZ_ext.
    + rewrite L. now rewrite !lenZ_map.
    + intros j Hj. rewrite L, lenZ_map, zrange_lenZ in Hj by lia. rewrite nthZ_map, nthZ_zrange by lia. cbn [option_map].
      replace (0 + j)%Z with j by lia. destruct (Z.eq_dec j k) as [->|Hjk].
      * rewrite N. replace (0 + k)%Z with k by lia. rewrite Z.ltb_irrefl. destruct (Z.ltb_spec k (k + 1)); [reflexivity|lia].
      * rewrite O by auto. rewrite nthZ_map, nthZ_zrange by lia. cbn [option_map]. replace (0 + j)%Z with j by lia.
        destruct (Z.ltb_spec j k), (Z.ltb_spec j (k + 1)); try lia; reflexivity.
Qed.

Lemma repeat_map {A} (x : A) n : repeat x (Z.to_nat n) = map (fun _ => x) (zrange 0 n).
Proof.
  unfold zrange. rewrite map_map. replace (n - 0)%Z with n by lia.
  assert (G : forall k s, repeat x k = map (fun _ => x) (seq s k)) by (induction k; intros; cbn; f_equal; auto). apply G.
Qed.

Lemma local_forces b bo r : (0 <= r < size)%Z -> nthZ bodies b = Some bo ->
  sb_localForces dim bo r (map (fcomp force) (body_block dim bo b r))
  = Ok (map (fun c => - zsum (fun i => force b i c) (b_bg bo r) (b_ed bo r)) (zrange 0 dim)).
Proof.
  intros Hr E. destruct (pack_body size dim bodies Hok b bo E) as [Hp _]. specialize (Hp r Hr).
  unfold sb_localForces. rewrite repeat_map.
  set (bd := fun (acc : list R) (i : Z) => _).
  assert (G : forall e, (b_bg bo r <= e)%Z -> (e <= b_ed bo r)%Z ->
     foldM bd (zrange (b_bg bo r) e) (map (fun _ => 0) (zrange 0 dim))
     = Ok (map (fun c => - zsum (fun i => force b i c) (b_bg bo r) e) (zrange 0 dim))).
  { intros e He. pattern e. apply (zind_up _ (b_bg bo r)); auto.
    - intros _. rewrite (zrange_nil (b_bg bo r)) by lia. cbn [foldM]. f_equal. apply map_ext. intros c. rewrite zsum_nil by lia. lra.
    - intros i Hi IH He'. rewrite (zrange_app _ i (i + 1)) by lia. rewrite foldM_app, IH by lia. cbn [bind].
      rewrite (zrange_cons i), (zrange_nil (i + 1)) by lia. cbn [foldM]. unfold bd at 1.
      rewrite (inner_forces _ (fun c => force b i c)); [|destruct Hok; lia|].
      + cbn [bind]. f_equal. apply map_ext_in. intros c Hc. apply zrange_In in Hc.
        destruct (Z.ltb_spec c dim); [|lia]. rewrite zsum_snoc' by lia. lra.
      + intros c Hc. unfold rd. rewrite nthZ_map, body_block_nth by lia. reflexivity. }
  apply G; unfold b_ed; lia.
Qed.

Lemma nth_map_zrange {A} (g : Z -> A) n c d : (0 <= c < n)%Z -> nth (Z.to_nat c) (map g (zrange 0 n)) d = g c.
Proof.
  intros H. apply nth_error_nth. rewrite <- nthZ_nat. rewrite Z2Nat.id by lia.
  rewrite nthZ_map, nthZ_zrange by lia. reflexivity.
Qed.

Lemma zsum_ranks (g : Z -> R) bo : (forall r, (0 <= r < size)%Z -> (0 <= b_l bo r)%Z) ->
  forall k, (0 <= k)%Z -> (k <= size)%Z ->
  fold_right Rplus 0 (map (fun r => - zsum g (b_bg bo r) (b_ed bo r)) (zrange 0 k)) = - zsum g 0 (b_bg bo k).
Proof.
  intros Hp k Hk. pattern k. apply (zind_up _ 0%Z); auto.
  - intros _. rewrite (zrange_nil 0 0) by lia. unfold b_bg. rewrite isum_nil, zsum_nil by lia. simpl. lra.
  - intros q Hq IH Hk'. rewrite (zrange_app 0 q (q + 1)) by lia. rewrite map_app, fold_right_app.
    rewrite (zrange_cons q), (zrange_nil (q + 1)) by lia. cbn [map fold_right].
    assert (FA : forall l z, fold_right Rplus z l = fold_right Rplus 0 l + z).
    { induction l; intros z; cbn [fold_right]; [lra|]. rewrite IHl. lra. }
    rewrite FA, IH by lia. unfold b_ed.
    replace (b_bg bo (q + 1)) with (b_bg bo q + b_l bo q)%Z by (unfold b_bg; now rewrite isum_snoc by lia).
    assert (B0 : (0 <= b_bg bo q)%Z) by (apply isum_nonneg; intros; apply Hp; lia).
    specialize (Hp q ltac:(lia)). rewrite (zsum_app g 0 (b_bg bo q) (b_bg bo q + b_l bo q)) by lia. lra.
Qed.

Lemma avg_forces :
  bp_calculateAvgForces size dim bodies f =
  Ok (map (fun b => map (fun c => - zsum (fun i => force b i c) 0 (match nthZ bodies b with Some bo => b_nPts bo | None => 0%Z end))
                        (zrange 0 dim)) (zrange 0 (lenZ bodies))).
Proof.
  unfold bp_calculateAvgForces. apply mapM_ok. intros b Hb. apply zrange_In in Hb.
  destruct (nthZ_in_range bodies b Hb) as [bo E]. unfold rd. rewrite E. cbn [bind].
  destruct (pack_body size dim bodies Hok b bo E) as [Hp Hn].
  unfold sb_calculateAvgForces.
  rewrite (mapM_ok _ (fun r => map (fun c => - zsum (fun i => force b i c) (b_bg bo r) (b_ed bo r)) (zrange 0 dim))).
  - cbn [bind]. f_equal. unfold allreduce. apply map_ext_in. intros c Hc. apply zrange_In in Hc. rewrite map_map.
    rewrite (map_ext (fun r => nth (Z.to_nat c) (map (fun c0 => - zsum (fun i => force b i c0) (b_bg bo r) (b_ed bo r)) (zrange 0 dim)) 0)
                     (fun r => - zsum (fun i => force b i c) (b_bg bo r) (b_ed bo r))) by (intros; now rewrite nth_map_zrange).
    destruct Hok as (H1 & _). rewrite zsum_ranks by (auto; lia). unfold b_bg at 1. rewrite Hn. reflexivity.
  - intros r Hr. apply zrange_In in Hr. rewrite (access_ok r b bo) by auto. cbn [bind]. now apply local_forces.
Qed.
End Forces.

(** * Host cells *)
Local Open Scope R_scope.
Lemma upper_boundR_sorted (g : Z -> R) n x k : (0 <= k < n)%Z ->
  (forall i j, (0 <= i < j)%Z -> (j < n)%Z -> g i < g j) -> g k <= x -> ((k + 1 < n)%Z -> x < g (k + 1)%Z) ->
  upper_boundR (map g (zrange 0 n)) x = (k + 1)%Z.
Proof.
  intros Hk Hm H1 H2.
  assert (G : forall q, (0 <= q)%Z -> (q <= k + 1)%Z -> upper_boundR (map g (zrange (k + 1 - q) n)) x = q).
  { intros q Hq. pattern q. apply (zind_up _ 0%Z); auto.
    - intros _. replace (k + 1 - 0)%Z with (k + 1)%Z by lia. destruct (Z_lt_dec (k + 1) n).
      + rewrite zrange_cons by lia. cbn [map upper_boundR]. destruct (Rlt_dec x (g (k + 1)%Z)); [reflexivity|].
        exfalso. apply n0. apply H2. lia.
      + rewrite zrange_nil by lia. reflexivity.
    - intros b Hb IH Hb'. rewrite zrange_cons by lia. cbn [map upper_boundR].
      destruct (Rlt_dec x (g (k + 1 - (b + 1))%Z)) as [L|L].
      + exfalso. destruct (Z.eq_dec b 0) as [->|N0].
        * replace (k + 1 - (0 + 1))%Z with k in L by lia. lra.
        * pose proof (Hm (k + 1 - (b + 1))%Z k ltac:(lia) ltac:(lia)). lra.
      + replace (k + 1 - (b + 1) + 1)%Z with (k + 1 - b)%Z by lia. rewrite IH by lia. lia. }
  specialize (G (k + 1)%Z ltac:(lia) ltac:(lia)). now replace (k + 1 - (k + 1))%Z with 0%Z in G by lia.
Qed.

(** Between the first and the last vertex there is exactly one cell. *)
Lemma cell_exists (g : Z -> R) n x : (0 <= n)%Z -> g 0%Z <= x -> x < g n -> exists k, (0 <= k < n)%Z /\ g k <= x < g (k + 1)%Z.
Proof.
  intros Hn. pattern n. apply (zind_up _ 0%Z); auto.
  - intros. lra.
  - intros b Hb IH H0 H1. destruct (Rlt_dec x (g b)) as [L|L].
    + destruct (IH H0 L) as (k & Hk & E). exists k. split; [lia|auto].
    + exists b. split; [lia|]. lra.
Qed.

Section Host.
Context (dim : Z) (mn mx : Z -> R) (per : Z -> Z -> bool) (w : Z -> list R) (m : mesh).
Context (Hg : grid_ok dim mn mx w) (Hm : createMeshArrays dim mn mx per w = Ok m).

Lemma host_ok d x : (0 <= d < dim)%Z -> mn d < x < mx d ->
  exists k, host_index m d x = Ok k /\ (0 <= k < lenZ (w d))%Z /\ vtx (mn d) (w d) k <= x < vtx (mn d) (w d) (k + 1).
Proof.
  intros Hd Hx. destruct Hg as [_ Hax]. destruct (Hax d Hd) as (Hne & Hpos & Hmx).
  destruct (createMesh_misc _ _ _ _ _ _ Hm) as (_ & Emin & Emax & _).
  destruct (mesh_vertex dim mn mx per w m Hm d Hd) as (Hn & Hc & _).
  pose proof (nonempty_len _ Hne) as Hl.
  destruct (cell_exists (vtx (mn d) (w d)) (lenZ (w d)) x ltac:(lia)) as (k & Hk & E).
  { rewrite vtx_0. lra. }
  { rewrite vtx_end. lra. }
  exists k. split; [|auto]. unfold host_index. rewrite Emin, Emax.
  destruct (Rge_dec (mn d) x); [lra|]. destruct (Rle_dec (mx d) x); [lra|].
  rewrite Hn. rewrite (mapM_ok _ (vtx (mn d) (w d))).
  - cbn [bind]. f_equal. rewrite (upper_boundR_sorted _ _ _ k); [lia|lia| |lra|intros; lra].
    intros i j Hi Hj. apply vtx_lt; auto; lia.
  - intros i Hi. apply zrange_In in Hi. apply Hc. lia.
Qed.

Lemma host_rejects d x : (x <= mn d \/ mx d <= x) -> host_index m d x = Err PETSC_ERR_MAX_VALUE.
Proof.
  intros Hx. destruct (createMesh_misc _ _ _ _ _ _ Hm) as (_ & Emin & Emax & _).
  unfold host_index. rewrite Emin, Emax. destruct (Rge_dec (mn d) x); [reflexivity|].
  destruct (Rle_dec (mx d) x); [reflexivity|]. lra.
Qed.
End Host.

Lemma mapM_err {A B} (f : A -> res B) c l :
  (forall x, In x l -> (exists y, f x = Ok y) \/ f x = Err c) -> (exists x, In x l /\ f x = Err c) -> mapM f l = Err c.
Proof.
  induction l as [|a t IH]; intros H (x & Hx & E); [destruct Hx|]. cbn [mapM].
  destruct (H a (or_introl eq_refl)) as [(y & Ea)|Ea]; rewrite Ea; cbn [bind]; [|reflexivity].
  destruct Hx as [<-|Hx]; [congruence|]. rewrite IH; [reflexivity| |eauto]. intros; apply H; now right.
Qed.

Lemma mapM_Ok_nth {A B} (f : A -> res B) l : (forall x, In x l -> exists y, f x = Ok y) ->
  exists ys, mapM f l = Ok ys /\ lenZ ys = lenZ l /\
    forall i x, nthZ l i = Some x -> exists y, nthZ ys i = Some y /\ f x = Ok y.
Proof.
  induction l as [|a t IH]; intros H.
  - exists []. split; [reflexivity|]. split; [reflexivity|]. intros i x E. apply nthZ_Some_range in E. unfold lenZ in E. cbn in E. lia.
  - destruct (H a (or_introl eq_refl)) as [y Ea]. destruct IH as (ys & E & L & N); [intros; apply H; now right|].
    exists (y :: ys). cbn [mapM]. rewrite Ea, E. cbn [bind]. split; [reflexivity|]. split; [rewrite !lenZ_cons; lia|].
    intros i x Ei. pose proof (nthZ_Some_range _ _ _ Ei) as Hr. destruct (Z.eq_dec i 0) as [->|Hi].
    + rewrite nthZ_cons_0 in Ei. injection Ei as <-. exists y. auto.
    + rewrite nthZ_cons_pos in Ei by lia. destruct (N _ _ Ei) as (z & Hz & Hf). exists z.
      rewrite nthZ_cons_pos by lia. auto.
Qed.

Section Update.
Context (dim : Z) (mn mx : Z -> R) (per : Z -> Z -> bool) (w : Z -> list R) (m : mesh).
Context (Hg : grid_ok dim mn mx w) (Hm : createMeshArrays dim mn mx per w = Ok m).
Context (b : body) (coords : list (list R)) (r : Z).
Context (Hc : Forall (fun row => lenZ row = dim) coords) (Hb : (0 <= b_bg b r)%Z) (He : (b_ed b r <= lenZ coords)%Z).

Lemma row_read i : In i (zrange (b_bg b r) (b_ed b r)) -> exists row, rd coords i = Ok row /\ nthZ coords i = Some row /\ lenZ row = dim.
Proof.
  intros Hi. apply zrange_In in Hi. destruct (nthZ_in_range coords i ltac:(lia)) as [row E]. exists row.
  split; [now apply rd_Ok|]. split; [exact E|]. rewrite Forall_forall in Hc. apply Hc. eapply nthZ_In; eauto.
Qed.

Lemma update_ok :
  (forall i row, (b_bg b r <= i < b_ed b r)%Z -> nthZ coords i = Some row -> inside m dim row) ->
  exists idx, updateMeshIdx m dim b coords r = Ok idx /\ (lenZ idx = Z.max 0 (b_ed b r - b_bg b r))%Z /\
    forall i row d x, (b_bg b r <= i < b_ed b r)%Z -> nthZ coords i = Some row -> (0 <= d < dim)%Z -> nthZ row d = Some x ->
      exists cell k, nthZ idx (i - b_bg b r) = Some cell /\ nthZ cell d = Some k /\ (0 <= k < lenZ (w d))%Z /\
        vtx (mn d) (w d) k <= x < vtx (mn d) (w d) (k + 1).
Proof.
  intros Hin. destruct (createMesh_misc _ _ _ _ _ _ Hm) as (_ & Emin & Emax & _).
  assert (Pt : forall i row, (b_bg b r <= i < b_ed b r)%Z -> nthZ coords i = Some row ->
     exists cell, mapM (fun d => do x <- rd row d; host_index m d x) (zrange 0 dim) = Ok cell /\
       forall d x, (0 <= d < dim)%Z -> nthZ row d = Some x -> exists k, nthZ cell d = Some k /\ (0 <= k < lenZ (w d))%Z /\
          vtx (mn d) (w d) k <= x < vtx (mn d) (w d) (k + 1)).
  { intros i row Hi E. destruct (row_read i) as (row' & _ & E' & L); [apply zrange_In; lia|]. rewrite E in E'. injection E' as <-.
    pose proof (Hin i row Hi E) as Ins. unfold inside in Ins. rewrite Emin, Emax in Ins.
    destruct (mapM_Ok_nth (fun d => do x <- rd row d; host_index m d x) (zrange 0 dim)) as (cell & E1 & L1 & N1).
    - intros d Hd. apply zrange_In in Hd. destruct (nthZ_in_range row d ltac:(lia)) as [x Ex].
      destruct (host_ok dim mn mx per w m Hg Hm d x Hd (Ins d x Hd Ex)) as (k & Hk & _). exists k.
      rewrite (proj2 (rd_Ok row d x) Ex). exact Hk.
    - exists cell. split; [exact E1|]. intros d x Hd Ex. destruct (N1 d d) as (k & Nk & Hk); [now rewrite nthZ_zrange by lia|].
      rewrite (proj2 (rd_Ok row d x) Ex) in Hk. cbn [bind] in Hk.
      destruct (host_ok dim mn mx per w m Hg Hm d x Hd (Ins d x Hd Ex)) as (k' & Hk' & Hr & Hv).
      rewrite Hk in Hk'. injection Hk' as <-. eauto. }
  unfold updateMeshIdx.
  destruct (mapM_Ok_nth (fun i => do row <- rd coords i; mapM (fun d => do x <- rd row d; host_index m d x) (zrange 0 dim))
              (zrange (b_bg b r) (b_ed b r))) as (idx & E & L & N).
  - intros i Hi. destruct (row_read i Hi) as (row & Er & En & _). apply zrange_In in Hi.
    destruct (Pt i row Hi En) as (cell & Ec & _). exists cell. rewrite Er. exact Ec.
  - exists idx. split; [exact E|]. split.
    + rewrite L. unfold lenZ. rewrite zrange_length. lia.
    + intros i row d x Hi En Hd Ex. destruct (N (i - b_bg b r)%Z i) as (cell & Nc & Hcell).
      { rewrite nthZ_zrange by lia. f_equal. lia. }
      rewrite (proj2 (rd_Ok coords i row) En) in Hcell. cbn [bind] in Hcell.
      destruct (Pt i row Hi En) as (cell' & Ec & Hc'). rewrite Hcell in Ec. injection Ec as <-.
      destruct (Hc' d x Hd Ex) as (k & Hk). exists cell, k. tauto.
Qed.

Lemma update_rejects i row d x : (b_bg b r <= i < b_ed b r)%Z -> nthZ coords i = Some row -> (0 <= d < dim)%Z ->
  nthZ row d = Some x -> (x <= mn d \/ mx d <= x) -> updateMeshIdx m dim b coords r = Err PETSC_ERR_MAX_VALUE.
Proof.
  intros Hi En Hd Ex Hx. unfold updateMeshIdx.
  assert (H1 : forall d y, (0 <= d < dim)%Z -> (exists k, host_index m d y = Ok k) \/ host_index m d y = Err PETSC_ERR_MAX_VALUE).
  { intros d' y Hd'. destruct (Rlt_dec (mn d') y) as [A|A]; [destruct (Rlt_dec y (mx d')) as [B|B]|].
    - left. destruct (host_ok dim mn mx per w m Hg Hm d' y Hd' (conj A B)) as (k & Hk & _). eauto.
    - right. apply (host_rejects dim mn mx per w m Hm). lra.
    - right. apply (host_rejects dim mn mx per w m Hm). lra. }
  assert (H2 : forall row0, lenZ row0 = dim ->
     (exists cell, mapM (fun d => do x <- rd row0 d; host_index m d x) (zrange 0 dim) = Ok cell) \/
     mapM (fun d => do x <- rd row0 d; host_index m d x) (zrange 0 dim) = Err PETSC_ERR_MAX_VALUE).
  { intros row0 L0. assert (G : forall l, (forall d, In d l -> (0 <= d < dim)%Z) ->
       (exists cell, mapM (fun d => do x <- rd row0 d; host_index m d x) l = Ok cell) \/
       mapM (fun d => do x <- rd row0 d; host_index m d x) l = Err PETSC_ERR_MAX_VALUE).
    { induction l as [|a t IH]; intros Hl; [left; exists []; reflexivity|]. cbn [mapM].
      assert (Ha : (0 <= a < dim)%Z) by (apply Hl; now left).
      destruct (nthZ_in_range row0 a ltac:(lia)) as [y Ey]. rewrite (proj2 (rd_Ok row0 a y) Ey). cbn [bind].
      destruct (H1 a y Ha) as [(k & Ek)|Ek]; rewrite Ek; cbn [bind]; [|auto].
      destruct IH as [(cell & E)|E]; [intros; apply Hl; now right| |]; rewrite E; cbn [bind]; eauto. }
    apply G. intros d' Hd'. now apply zrange_In. }
  apply mapM_err.
  - intros i' Hi'. destruct (row_read i' Hi') as (row' & Er & _ & L). rewrite Er. cbn [bind]. now apply H2.
  - exists i. split; [apply zrange_In; lia|]. rewrite (proj2 (rd_Ok coords i row) En). cbn [bind].
    apply mapM_err.
    + intros d' Hd'. apply zrange_In in Hd'. destruct (row_read i) as (row' & _ & En' & L); [apply zrange_In; lia|].
      rewrite En in En'. injection En' as <-. destruct (nthZ_in_range row d' ltac:(lia)) as [y Ey].
      rewrite (proj2 (rd_Ok row d' y) Ey). cbn [bind]. now apply H1.
    + exists d. split; [apply zrange_In; lia|]. rewrite (proj2 (rd_Ok row d x) Ex). cbn [bind].
      now apply (host_rejects dim mn mx per w m Hm).
Qed.
End Update.

Lemma cell_unique mn w x k k' : positive w -> (0 <= k < lenZ w)%Z -> (0 <= k' < lenZ w)%Z ->
  vtx mn w k <= x < vtx mn w (k + 1) -> vtx mn w k' <= x < vtx mn w (k' + 1) -> k = k'.
Proof.
  intros Hp Hk Hk' H H'. destruct (Z.lt_trichotomy k k') as [L|[E|L]]; auto; exfalso.
  - destruct (Z.eq_dec (k + 1) k') as [<-|N]; [lra|]. pose proof (vtx_lt mn w (k + 1) k' Hp ltac:(lia) ltac:(lia)). lra.
  - destruct (Z.eq_dec (k' + 1) k) as [<-|N]; [lra|]. pose proof (vtx_lt mn w (k' + 1) k Hp ltac:(lia) ltac:(lia)). lra.
Qed.

(** * Body files *)
Local Open Scope string_scope.
Local Open Scope list_scope.

Lemma next_row_Ok lx n : forall s row rest, next_row lx n s = Ok (row, rest) <-> reads lx s row rest /\ length row = n.
Proof.
  induction n as [|k IH]; intros s row rest; cbn [next_row].
  - split.
    + intros E. injection E as <- <-. split; [constructor|reflexivity].
    + intros [Hr HL]. destruct row; [|discriminate]. inversion Hr; subst. reflexivity.
  - split.
    + destruct (lex_real lx s) as [[v s']|] eqn:E; [|discriminate]. intros H.
      apply bind_ok_inv in H as ([t s''] & H1 & H2). injection H2 as <- <-. apply IH in H1 as [H1 H3].
      split; [econstructor; eauto|cbn; lia].
    + intros [Hr HL]. destruct row as [|v t]; [discriminate|]. inversion Hr as [|? ? s' ? ? E Ht]; subst. rewrite E.
      injection HL as HL. rewrite (proj2 (IH s' t rest)) by auto. reflexivity.
Qed.

Lemma next_row_outcome lx n s : (exists row rest, next_row lx n s = Ok (row, rest)) \/ next_row lx n s = Err PETSC_ERR_FILE_READ.
Proof.
  revert s. induction n as [|k IH]; intros s; cbn [next_row]; [eauto|].
  destruct (lex_real lx s) as [[v s']|]; [|auto]. destruct (IH s') as [(r & t & E)| E]; rewrite E; cbn [bind]; eauto.
Qed.

Lemma first_row_reads lx vs : forall s rest, reads lx s vs rest -> first_row lx (length vs) s = vs.
Proof.
  induction vs as [|v t IH]; intros s rest H; cbn [first_row length]; [reflexivity|].
  inversion H as [|? ? s' ? ? E Ht]; subst. rewrite E. f_equal. eauto.
Qed.

Lemma count_reads lx : proper lx -> forall fuel s, (String.length s <= fuel)%nat ->
  exists vs rest, reads lx s vs rest /\ lex_real lx rest = None /\ count_reals lx fuel s = lenZ vs.
Proof.
  intros [Hp _]. induction fuel as [|k IH]; intros s Hs; cbn [count_reals].
  - exists [], s. split; [constructor|]. split; [|reflexivity]. destruct (lex_real lx s) as [[v r]|] eqn:E; [|reflexivity].
    apply Hp in E. lia.
  - destruct (lex_real lx s) as [[v s']|] eqn:E.
    + pose proof (Hp _ _ _ E). destruct (IH s' ltac:(lia)) as (vs & rest & Hr & Hn & Hc).
      exists (v :: vs), rest. split; [econstructor; eauto|]. split; [exact Hn|]. rewrite Hc, lenZ_cons. reflexivity.
    + exists [], s. split; [constructor|]. split; [exact E|reflexivity].
Qed.

Lemma reads_det lx s vs rest vs' rest' : reads lx s vs rest -> lex_real lx rest = None ->
  reads lx s vs' rest' -> lex_real lx rest' = None -> vs = vs' /\ rest = rest'.
Proof.
  intros H. revert vs' rest'. induction H as [s|s v s' vs rest E H IH]; intros vs' rest' Hn H' Hn'.
  - inversion H' as [|? ? ? ? ? E']; subst; auto. congruence.
  - inversion H' as [|? v2 s2 vs2 ? E' H2]; subst; [congruence|]. rewrite E in E'. injection E' as <- <-.
    destruct (IH _ _ Hn H2 Hn') as [-> ->]. auto.
Qed.

Lemma empty_none lx : proper lx -> lex_real lx "" = None.
Proof. intros [Hp _]. destruct (lex_real lx "") as [[v r]|] eqn:E; [|reflexivity]. apply Hp in E. cbn in E. lia. Qed.

Lemma count_exact lx s vs : proper lx -> exact_line lx s vs -> count_reals lx (String.length s) s = lenZ vs.
Proof.
  intros Hp He. destruct (count_reads lx Hp (String.length s) s (le_n _)) as (vs' & rest & Hr & Hn & Hc).
  rewrite Hc. destruct (reads_det lx _ _ _ _ _ Hr Hn He (empty_none lx Hp)) as [-> _]. reflexivity.
Qed.

Lemma wr_mid {A} (l1 l2 : list A) x y : wr (l1 ++ x :: l2) (lenZ l1) y = Ok (l1 ++ y :: l2).
Proof.
  unfold wr. rewrite lenZ_app, lenZ_cons. pose proof (lenZ_nonneg l1). pose proof (lenZ_nonneg l2).
  replace ((0 <=? lenZ l1) && (lenZ l1 <? lenZ l1 + (1 + lenZ l2)))%Z with true by lia. f_equal.
  unfold lenZ. rewrite Nat2Z.id. clear. induction l1 as [|h t IH]; cbn; [reflexivity|]. now rewrite IH.
Qed.

Lemma next_rows_ok lx dim n z : forall ls rows pre tail,
  Forall2 (exact_line lx) ls rows -> Forall (fun r => lenZ r = dim) rows ->
  (lenZ pre + lenZ rows <= n)%Z -> length tail = length rows -> Forall (eq z) tail ->
  forall ls', next_rows lx dim n (ls ++ ls') (pre ++ tail) (lenZ pre)
  = next_rows lx dim n ls' (pre ++ rows) (lenZ pre + lenZ rows).
Proof.
  intros ls rows pre tail F. revert pre tail. induction F as [|s row ls rows Hr F IH]; intros pre tl HD HL Ht Hz ls'.
  - destruct tl; [|discriminate]. cbn [List.app]. rewrite app_nil_r. f_equal. unfold lenZ. cbn. lia.
  - destruct tl as [|t0 tl]; [discriminate|]. cbn [List.app next_rows].
    rewrite lenZ_cons in HL. pose proof (lenZ_nonneg rows). pose proof (lenZ_nonneg pre).
    destruct (Z.geb_spec (lenZ pre) n) as [G|G]; [lia|].
    apply Forall_cons_iff in HD as [HD1 HD2]. apply Forall_cons_iff in Hz as [Hz1 Hz2].
    assert (E : next_row lx (Z.to_nat dim) s = Ok (row, "")).
    { apply next_row_Ok. split; [exact Hr|]. unfold lenZ in HD1. lia. }
    rewrite E. cbn [bind String.eqb]. rewrite wr_mid. cbn [bind].
    injection Ht as Ht. specialize (IH (pre ++ [row])%list tl HD2). rewrite lenZ_app in IH.
    replace (lenZ [row]) with 1%Z in IH by reflexivity. specialize (IH ltac:(lia) Ht Hz2 ls').
    rewrite <- !app_assoc in IH. cbn [List.app] in IH. rewrite IH. f_equal. rewrite lenZ_cons. lia.
Qed.

Lemma lenZ_repeat {A} (x : A) n : (0 <= n)%Z -> lenZ (repeat x (Z.to_nat n)) = n.
Proof. intros. unfold lenZ. rewrite repeat_length. lia. Qed.

(** What happens after a well-formed header and first coordinate set. *)
Lemma read_first lx n header first ls row0 rest nl : proper lx ->
  lex_int lx header = Some (n, "") -> reads lx first row0 rest -> lex_real lx rest = None -> row0 <> [] -> (1 <= n)%Z ->
  readLagrangianPoints lx (Some (mkText (header :: first :: ls) nl)) =
  (do (coords, c) <- next_rows lx (lenZ row0) n ls
      (row0 :: repeat (repeat 0%R (Z.to_nat (lenZ row0))) (Z.to_nat (n - 1))) 1;
   if negb (c =? n)%Z then Err PETSC_ERR_FILE_READ else Ok (n, coords)).
Proof.
  intros Hp Hh Hr Hn H0 H1. unfold readLagrangianPoints. cbn [t_lines]. rewrite Hh. cbn [String.eqb negb].
  destruct (count_reads lx Hp (String.length first) first (le_n _)) as (vs' & rest' & Hr' & Hn' & Hc).
  destruct (reads_det lx _ _ _ _ _ Hr Hn Hr' Hn') as [<- <-]. rewrite Hc.
  assert (Hl : (0 < lenZ row0)%Z) by (now apply nonempty_len).
  destruct (Z.eqb_spec (lenZ row0) 0); [lia|]. destruct (Z.ltb_spec n 0); [lia|]. destruct (Z.eqb_spec n 0); [lia|].
  replace (Z.to_nat n) with (S (Z.to_nat (n - 1))) by lia. cbn [repeat tl].
  replace (Z.to_nat (lenZ row0)) with (length row0) by (unfold lenZ; lia). rewrite (first_row_reads lx row0 first rest Hr).
  unfold wr. rewrite lenZ_cons. pose proof (lenZ_nonneg (repeat (repeat 0%R (length row0)) (Z.to_nat (n - 1)))).
  match goal with |- context[if ?b then Ok _ else UB] => replace b with true by lia end.
  cbn [bind Z.to_nat upd_nat]. reflexivity.
Qed.

Lemma file_exact lx dim n rows tx : proper lx -> (1 <= dim)%Z -> (1 <= n)%Z -> point_file lx dim n rows tx ->
  readLagrangianPoints lx (Some tx) = Ok (n, rows).
Proof.
  intros Hp Hd Hn (header & ls & Ht & Hh & HL & HF & HD). destruct tx as [tl nl]. cbn [t_lines] in Ht. subst tl.
  destruct HF as [|first row0 ls rows Hr HF]; [unfold lenZ in HL; cbn in HL; lia|].
  apply Forall_cons_iff in HD as [HD1 HD2]. rewrite lenZ_cons in HL.
  rewrite (read_first lx n header first ls row0 "" nl Hp Hh Hr (empty_none lx Hp)); [|intros ->; unfold lenZ in HD1; cbn in HD1; lia|lia].
  rewrite <- (app_nil_r ls) at 1.
  pose proof (next_rows_ok lx (lenZ row0) n (repeat 0%R (Z.to_nat (lenZ row0))) ls rows [row0]
     (repeat (repeat 0%R (Z.to_nat (lenZ row0))) (Z.to_nat (n - 1))) HF) as G.
  replace (lenZ [row0]) with 1%Z in G by reflexivity. cbn [List.app] in G. rewrite G; clear G.
  - cbn [next_rows bind]. destruct (Z.eqb_spec (1 + lenZ rows) n); [reflexivity|lia].
  - rewrite HD1. exact HD2.
  - lia.
  - rewrite repeat_length. unfold lenZ in HL. lia.
  - apply Forall_forall. intros x Hx. apply repeat_spec in Hx. auto.
Qed.

Lemma file_extra lx dim n rows tx s ls : proper lx -> (1 <= dim)%Z -> (1 <= n)%Z -> point_file lx dim n rows tx ->
  readLagrangianPoints lx (Some (mkText (t_lines tx ++ s :: ls) (t_nl tx))) = UB.
Proof.
  intros Hp Hd Hn (header & ls0 & Ht & Hh & HL & HF & HD). rewrite Ht. cbn [List.app].
  destruct HF as [|first row0 ls0 rows Hr HF]; [unfold lenZ in HL; cbn in HL; lia|].
  apply Forall_cons_iff in HD as [HD1 HD2]. rewrite lenZ_cons in HL. cbn [List.app].
  rewrite (read_first lx n header first (ls0 ++ s :: ls) row0 "" (t_nl tx) Hp Hh Hr (empty_none lx Hp)); [|intros ->; unfold lenZ in HD1; cbn in HD1; lia|lia].
  pose proof (next_rows_ok lx (lenZ row0) n (repeat 0%R (Z.to_nat (lenZ row0))) ls0 rows [row0]
     (repeat (repeat 0%R (Z.to_nat (lenZ row0))) (Z.to_nat (n - 1))) HF) as G.
  replace (lenZ [row0]) with 1%Z in G by reflexivity. cbn [List.app] in G. rewrite G; clear G.
  - cbn [next_rows]. destruct (Z.geb_spec (1 + lenZ rows) n); [reflexivity|lia].
  - rewrite HD1. exact HD2.
  - lia.
  - rewrite repeat_length. unfold lenZ in HL. lia.
  - apply Forall_forall. intros x Hx. apply repeat_spec in Hx. auto.
Qed.

Lemma next_rows_sound lx dim n : forall ls coords c coords' c', (0 <= dim)%Z -> lenZ coords = n -> (0 <= c)%Z ->
  next_rows lx dim n ls coords c = Ok (coords', c') ->
  exists rows, Forall2 (exact_line lx) ls rows /\ Forall (fun r => lenZ r = dim) rows /\
    c' = (c + lenZ ls)%Z /\ lenZ coords' = n /\ firstn (Z.to_nat c') coords' = (firstn (Z.to_nat c) coords ++ rows)%list.
Proof.
  induction ls as [|s t IH]; intros coords c coords' c' Hd HL Hc H; cbn [next_rows] in H.
  - injection H as <- <-. exists []. repeat split; auto.
    + unfold lenZ. cbn. lia.
    + now rewrite app_nil_r.
  - destruct (Z.geb_spec c n) as [G|G]; [discriminate|]. apply bind_ok_inv in H as ([row s'] & E & H).
    destruct (String.eqb_spec s' "") as [->|]; [|discriminate]. apply bind_ok_inv in H as (cs & W & H).
    apply next_row_Ok in E as [E EL].
    pose proof (wr_ok coords c row ltac:(lia)) as (l' & W' & L' & N' & O').
    assert (l' = cs) by congruence; subst l'; clear W'.
    destruct (IH cs (c + 1)%Z coords' c' Hd ltac:(lia) ltac:(lia) H) as (rows & F & FD & -> & HL' & Hf).
    exists (row :: rows). split; [constructor; auto|]. split; [constructor; [unfold lenZ; lia|exact FD]|].
    split; [rewrite lenZ_cons; lia|]. split; [exact HL'|]. rewrite Hf.
    replace (Z.to_nat (c + 1)) with (S (Z.to_nat c)) by lia.
    assert (Ef : firstn (S (Z.to_nat c)) cs = (firstn (Z.to_nat c) coords ++ [row])%list).
    { rewrite <- (firstn_skipn (Z.to_nat c) cs) at 1.
      replace (firstn (Z.to_nat c) cs) with (firstn (Z.to_nat c) coords).
      - assert (Es : exists u, skipn (Z.to_nat c) cs = row :: u).
        { unfold nthZ in N'. destruct (Z.ltb_spec c 0); [lia|].
          apply nth_error_split in N' as (a & u & -> & La). exists u. rewrite <- La.
          rewrite skipn_app, skipn_all, Nat.sub_diag. reflexivity. }
        destruct Es as [u ->].
        assert (Lf : length (firstn (Z.to_nat c) coords) = Z.to_nat c) by (rewrite firstn_length; unfold lenZ in *; lia).
        rewrite firstn_app. rewrite firstn_all2 by lia. f_equal. replace (S (Z.to_nat c) - length (firstn (Z.to_nat c) coords))%nat with 1%nat by lia.
        reflexivity.
      - apply nthZ_ext.
        + unfold lenZ. rewrite !firstn_length. unfold lenZ in *. lia.
        + intros i Hi. assert (Hi' : (0 <= i < c)%Z) by (unfold lenZ in Hi; rewrite firstn_length in Hi; lia).
          assert (Nf : forall l : list (list R), nthZ (firstn (Z.to_nat c) l) i = nthZ l i).
          { intros l. rewrite <- (firstn_skipn (Z.to_nat c) l) at 2. destruct (Z_lt_dec i (lenZ (firstn (Z.to_nat c) l))) as [X|X].
            - rewrite nthZ_app_l by lia. reflexivity.
            - assert (nthZ (firstn (Z.to_nat c) l) i = None) as -> by (apply nthZ_None; lia).
              symmetry. apply nthZ_None. rewrite firstn_skipn. unfold lenZ in *. rewrite firstn_length in X. lia. }
          rewrite !Nf. symmetry. apply O'. lia. }
    rewrite Ef, <- app_assoc. reflexivity.
Qed.

Lemma file_sound lx tx n coords : proper lx -> (t_nl tx = true \/ 2 <= lenZ (t_lines tx))%Z ->
  readLagrangianPoints lx (Some tx) = Ok (n, coords) ->
  exists header first ls row0 rest rows,
    t_lines tx = header :: first :: ls /\ lex_int lx header = Some (n, "") /\ (1 <= n)%Z /\
    reads lx first row0 rest /\ lex_real lx rest = None /\ row0 <> [] /\
    Forall2 (exact_line lx) ls rows /\ Forall (fun r => lenZ r = lenZ row0) rows /\
    coords = row0 :: rows /\ lenZ coords = n.
Proof.
  intros Hp Hnl H. unfold readLagrangianPoints in H. destruct tx as [lines nl]. cbn [t_lines t_nl] in *.
  destruct lines as [|header rest0]; [discriminate|]. destruct (lex_int lx header) as [[k extra]|] eqn:Eh; [|discriminate].
  destruct (String.eqb_spec extra "") as [->|]; cbn [negb] in H; [|discriminate].
  destruct rest0 as [|first ls].
  - assert (nl = true) as -> by (destruct Hnl as [->|X]; [reflexivity|unfold lenZ in X; cbn in X; lia]).
    cbn [String.length count_reals] in H. discriminate.
  - destruct (count_reads lx Hp (String.length first) first (le_n _)) as (row0 & rest & Hr & Hn & Hc).
    rewrite Hc in H. destruct (Z.eqb_spec (lenZ row0) 0) as [|Z0]; [discriminate|].
    destruct (Z.ltb_spec k 0); [discriminate|]. destruct (Z.eqb_spec k 0); [discriminate|].
    replace (first_row lx (Z.to_nat (lenZ row0)) first) with row0 in H
      by (unfold lenZ; rewrite Nat2Z.id; symmetry; eapply first_row_reads; eauto).
    apply bind_ok_inv in H as (cs & W & H). apply bind_ok_inv in H as ([cs' c] & NR & H). cbn [tl] in NR.
    destruct (Z.eqb_spec c k) as [->|]; cbn [negb] in H; [|discriminate]. injection H as <- <-.
    assert (E1 : cs = row0 :: repeat (repeat 0%R (Z.to_nat (lenZ row0))) (Z.to_nat (k - 1))).
    { replace (Z.to_nat k) with (S (Z.to_nat (k - 1))) in W by lia. cbn [repeat] in W. unfold wr in W.
      destruct ((0 <=? 0) && _)%Z; [|discriminate]. injection W as <-. reflexivity. }
    subst cs. apply next_rows_sound in NR.
    + destruct NR as (rows & F & FD & Ek & HL & Hf).
      exists header, first, ls, row0, rest, rows. split; [reflexivity|]. split; [exact Eh|]. split; [lia|].
      split; [exact Hr|]. split; [exact Hn|]. split; [intros ->; apply Z0; reflexivity|]. split; [exact F|]. split; [exact FD|].
      cbn [Z.to_nat Pos.to_nat Pos.iter_op firstn List.app] in Hf. rewrite firstn_all2 in Hf by (unfold lenZ in HL; lia). auto.
    + apply lenZ_nonneg.
    + rewrite lenZ_cons, lenZ_repeat by lia. lia.
    + lia.
Qed.

Lemma next_rows_no_ub lx dim n : forall ls coords c, lenZ coords = n -> (0 <= c)%Z -> (c + lenZ ls <= n)%Z ->
  next_rows lx dim n ls coords c <> UB.
Proof.
  induction ls as [|s t IH]; intros coords c HL Hc HB; cbn [next_rows]; [discriminate|].
  rewrite lenZ_cons in HB. pose proof (lenZ_nonneg t). destruct (Z.geb_spec c n); [lia|].
  destruct (next_row_outcome lx (Z.to_nat dim) s) as [(row & rest & E)|E]; rewrite E; cbn [bind]; [|discriminate].
  destruct (String.eqb rest ""); [|discriminate]. pose proof (wr_ok coords c row ltac:(lia)) as (l' & W & L' & _).
  rewrite W. cbn [bind]. apply IH; lia.
Qed.

Lemma file_no_ub lx tx n extra header : lex_int lx header = Some (n, extra) -> (1 <= n)%Z ->
  (exists ls, t_lines tx = header :: ls /\ (lenZ ls <= n)%Z) -> readLagrangianPoints lx (Some tx) <> UB.
Proof.
  intros Hh Hn (ls & Ht & HB). unfold readLagrangianPoints. rewrite Ht, Hh. destruct (negb _); [discriminate|].
  set (line := match ls with [] => _ | s :: _ => s end). set (dim := count_reals _ _ _).
  destruct (Z.eqb_spec dim 0); [discriminate|]. destruct (Z.ltb_spec n 0); [lia|]. destruct (Z.eqb_spec n 0); [lia|].
  pose proof (wr_ok (repeat (repeat 0%R (Z.to_nat dim)) (Z.to_nat n)) 0 (first_row lx (Z.to_nat dim) line)) as (l' & W & L' & _).
  { rewrite lenZ_repeat by lia. lia. }
  rewrite W. cbn [bind]. rewrite lenZ_repeat in L' by lia.
  assert (NU : next_rows lx dim n (tl ls) l' 1 <> UB).
  { apply next_rows_no_ub; [lia|lia|]. destruct ls as [|s t]; cbn [tl].
    - unfold lenZ. cbn. lia.
    - rewrite lenZ_cons in HB. lia. }
  destruct (next_rows lx dim n (tl ls) l' 1) as [[cs c]| |]; cbn [bind]; [|discriminate|congruence].
  destruct (negb _); discriminate.
Qed.
