(** Proofs about the layout of the Lagrangian unknowns. *)
From Coq Require Import String Ascii Reals Lra Permutation.
From Verif Require Import Prelude ZSum RSum TypesModel GridModel GridSpec GridProof MeshProof IndexModel IndexSpec IndexProof BodyModel BodySpec.
Local Open Scope Z_scope.

Lemma flat_map_shift {A} (g : Z -> list A) a b :
  flat_map g (zrange a b) = flat_map (fun q => g (q + a)) (zrange 0 (b - a)).
Proof.
  replace (zrange a b) with (map (fun q => q + a) (zrange 0 (b - a))).
  - rewrite !flat_map_concat_map, map_map. reflexivity.
  - replace (zrange a b) with (map (fun q : Z => q) (zrange (0 + a) (b - a + a))).
    + rewrite map_zrange_shift. reflexivity.
    + rewrite map_id. f_equal; lia.
Qed.

Lemma body_block_len dim bo b r : 0 <= dim -> 0 <= b_l bo r -> lenZ (body_block dim bo b r) = b_l bo r * dim.
Proof.
  intros Hd Hl. unfold body_block. rewrite flat_map_lenZ. rewrite (isum_ext _ (fun _ => dim)).
  - unfold b_ed. rewrite isum_const by lia. lia.
  - intros i _. rewrite lenZ_map, zrange_lenZ by lia. lia.
Qed.

Lemma body_block_nth dim bo b r i c : 0 <= c < dim -> b_bg bo r <= i < b_ed bo r ->
  nthZ (body_block dim bo b r) ((i - b_bg bo r) * dim + c) = Some (b, i, c).
Proof.
  intros Hc Hi. unfold body_block. rewrite flat_map_shift.
  set (g := fun q => map (fun c => (b, q + b_bg bo r, c)) (zrange 0 dim)).
  assert (E : (i - b_bg bo r) * dim = isum (fun q => lenZ (g q)) 0 (i - b_bg bo r)).
  { rewrite (isum_ext _ (fun _ => dim)).
    - rewrite isum_const by lia. lia.
    - intros q _. unfold g. rewrite lenZ_map, zrange_lenZ by lia. lia. }
  rewrite E. apply flat_map_nth; [lia|]. unfold g. rewrite nthZ_map, nthZ_zrange by lia. cbn [option_map].
  do 2 f_equal. f_equal; lia.
Qed.

Lemma body_block_In dim bo b r u : In u (body_block dim bo b r) <->
  exists i c, u = (b, i, c) /\ b_bg bo r <= i < b_ed bo r /\ 0 <= c < dim.
Proof.
  unfold body_block. rewrite in_flat_map. split.
  - intros (i & Hi & Hu). apply in_map_iff in Hu as (c & <- & Hc). apply zrange_In in Hi, Hc. eauto.
  - intros (i & c & -> & Hi & Hc). exists i. rewrite zrange_In. split; [lia|]. apply in_map_iff. exists c.
    rewrite zrange_In. split; auto.
Qed.

Lemma body_block_NoDup dim bo b r : NoDup (body_block dim bo b r).
Proof.
  unfold body_block. apply NoDup_flat_map.
  - apply zrange_NoDup.
  - intros i _. apply FinFun.Injective_map_NoDup; [|apply zrange_NoDup]. intros x y E. congruence.
  - intros i j x _ _ Hi Hj. apply in_map_iff in Hi as (c & <- & _). apply in_map_iff in Hj as (c' & E & _). congruence.
Qed.

(** The bodies of one rank. *)
Definition body_part (dim : Z) (bodies : list body) (r b : Z) : list (Z * Z * Z) :=
  match nthZ bodies b with Some bo => body_block dim bo b r | None => [] end.
Definition body_rank (dim : Z) (bodies : list body) (r : Z) : list (Z * Z * Z) :=
  flat_map (body_part dim bodies r) (zrange 0 (lenZ bodies)).

Lemma body_layout_eq size dim bodies : body_layout size dim bodies = flat_map (body_rank dim bodies) (zrange 0 size).
Proof. reflexivity. Qed.

Definition cnt_of (dim : Z) (bodies : list body) (r b : Z) : Z :=
  match nthZ bodies b with Some bo => sb_nLclAllProcs dim bo r | None => 0 end.

Lemma fold_cnt {B} (g : B -> Z) l : forall acc,
  fold_left (fun s b => s + g b) l acc = acc + isum (fun k => match nthZ l k with Some b => g b | None => 0 end) 0 (lenZ l).
Proof.
  induction l as [|b t IH]; intros acc; cbn [fold_left].
  - rewrite isum_nil by (unfold lenZ; simpl; lia). lia.
  - rewrite IH. rewrite lenZ_cons. pose proof (lenZ_nonneg t).
    rewrite (isum_app _ 0 1 (1 + lenZ t)) by lia.
    replace (isum _ 0 1) with (g b).
    + replace 1 with (0 + 1) at 1 by lia. replace (1 + lenZ t) with (lenZ t + 1) by lia. rewrite isum_shift.
      rewrite (isum_ext (fun k => match nthZ (b :: t) (k + 1) with Some b0 => g b0 | None => 0 end)
                        (fun k => match nthZ t k with Some b0 => g b0 | None => 0 end)); [lia|].
      intros i Hi. rewrite nthZ_cons_pos by lia. now replace (i + 1 - 1) with i by lia.
    + change 1 with (0 + 1). rewrite isum_snoc, isum_nil by lia. rewrite nthZ_cons_0. lia.
Qed.

Lemma bp_cnt dim bodies r : bp_nLclAllProcs dim bodies r = isum (cnt_of dim bodies r) 0 (lenZ bodies).
Proof. unfold bp_nLclAllProcs. rewrite fold_cnt. unfold cnt_of. lia. Qed.

Lemma isum_scal f k a b : isum (fun i => f i * k) a b = isum f a b * k.
Proof. unfold isum. induction (zrange a b); cbn [map fold_right]; lia. Qed.
Lemma isum_swap (f : Z -> Z -> Z) a b c d :
  isum (fun i => isum (f i) c d) a b = isum (fun j => isum (fun i => f i j) a b) c d.
Proof.
  unfold isum. induction (zrange a b) as [|x t IH]; cbn [map fold_right].
  - induction (zrange c d); cbn [map fold_right]; lia.
  - rewrite IH. clear IH. induction (zrange c d) as [|y u IHu]; cbn [map fold_right]; lia.
Qed.

Section Pack.
Context (size dim : Z) (bodies : list body) (Hok : pack_ok size dim bodies).

Lemma pack_body b bo : nthZ bodies b = Some bo -> spread size bo.
Proof. intros E. destruct Hok as (_ & _ & F). rewrite Forall_forall in F. apply F. eapply nthZ_In; eauto. Qed.

Lemma body_part_len r b : 0 <= r < size -> lenZ (body_part dim bodies r b) = cnt_of dim bodies r b.
Proof.
  intros Hr. unfold body_part, cnt_of. destruct (nthZ bodies b) eqn:E; [|reflexivity].
  destruct (pack_body _ _ E) as [Hp _]. destruct Hok as (_ & Hd & _).
  rewrite body_block_len by (try apply Hp; lia). reflexivity.
Qed.

Lemma cnt_nonneg r b : 0 <= r < size -> 0 <= cnt_of dim bodies r b.
Proof. intros. rewrite <- body_part_len by auto. apply lenZ_nonneg. Qed.

Lemma body_rank_len r : 0 <= r < size -> lenZ (body_rank dim bodies r) = bp_nLclAllProcs dim bodies r.
Proof.
  intros Hr. unfold body_rank. rewrite flat_map_lenZ, bp_cnt. apply isum_ext. intros. now apply body_part_len.
Qed.

Lemma sb_off bo r : spread size bo -> 0 <= r < size -> sb_offsets size dim bo r = b_bg bo r * dim.
Proof.
  intros _ Hr. unfold sb_offsets. rewrite offsets_of_spec by lia. unfold b_bg, sb_nLclAllProcs.
  apply isum_scal.
Qed.

Lemma owner_of bo i : spread size bo -> 0 <= i < b_nPts bo ->
  exists r, 0 <= r < size /\ b_bg bo r <= i < b_ed bo r.
Proof.
  intros [Hp Hs] Hi. destruct Hok as (H1 & _). rewrite <- Hs in Hi.
  destruct (isum_locate (b_l bo) size i ltac:(lia) Hp Hi) as (q & Hq & Hb).
  exists q. split; [lia|]. unfold b_bg, b_ed. rewrite isum_snoc in Hb by lia. unfold b_bg. lia.
Qed.

Lemma bg_mono bo q r : spread size bo -> 0 <= q <= r -> r <= size -> b_bg bo q <= b_bg bo r.
Proof. intros [Hp _] Hq Hr. unfold b_bg. apply isum_le; [intros; apply Hp; lia|lia]. Qed.

Lemma owner_unique_b bo i r r' : spread size bo -> 0 <= r < size -> 0 <= r' < size ->
  b_bg bo r <= i < b_ed bo r -> b_bg bo r' <= i < b_ed bo r' -> r = r'.
Proof.
  intros Sp Hr Hr' H H'. destruct (Z.lt_trichotomy r r') as [L|[E|L]]; auto; exfalso.
  - pose proof (bg_mono bo (r + 1) r' Sp ltac:(lia) ltac:(lia)) as M. unfold b_bg in M at 1.
    rewrite isum_snoc in M by lia. unfold b_ed, b_bg in *. lia.
  - pose proof (bg_mono bo (r' + 1) r Sp ltac:(lia) ltac:(lia)) as M. unfold b_bg in M at 1.
    rewrite isum_snoc in M by lia. unfold b_ed, b_bg in *. lia.
Qed.

Lemma sb_findProc_ok bo i r : spread size bo -> 0 <= i < b_nPts bo -> 0 <= r < size ->
  b_bg bo r <= i < b_ed bo r -> sb_findProc size dim bo i = Ok r.
Proof.
  intros Sp Hi Hr Ho. unfold sb_findProc. replace ((i <? 0) || (i >=? b_nPts bo)) with false by lia.
  destruct Hok as (_ & Hd & _).
  rewrite (upper_bound_map _ size (i * dim) r); [f_equal; lia|lia| |].
  - intros q Hq. rewrite sb_off by (auto; lia). pose proof (bg_mono bo q r Sp Hq ltac:(lia)).
    apply Z.mul_le_mono_nonneg_r; lia.
  - intros q Hq. rewrite sb_off by (auto; lia).
    pose proof (bg_mono bo (r + 1) q Sp ltac:(lia) ltac:(lia)) as M. unfold b_bg in M at 1.
    rewrite isum_snoc in M by lia. unfold b_ed, b_bg in *. apply Z.mul_lt_mono_pos_r; lia.
Qed.

Lemma fold_parts r b acc : 0 <= r < size -> 0 <= b <= lenZ bodies ->
  foldM (fun s b' => do bo <- rd bodies b'; do n <- per_rank size (sb_nLclAllProcs dim bo) r; Ok (s + n)) (zrange 0 b) acc
  = Ok (acc + isum (cnt_of dim bodies r) 0 b).
Proof.
  intros Hr [H0 Hb]. revert Hb. pattern b. apply (zind_up _ 0); auto.
  - intros _. rewrite zrange_nil, isum_nil by lia. cbn [foldM]. f_equal. lia.
  - intros q Hq IH Hb. rewrite (zrange_app 0 q (q + 1)) by lia. rewrite foldM_app, IH by lia. cbn [bind].
    rewrite zrange_cons, (zrange_nil (q + 1)) by lia. cbn [foldM].
    destruct (nthZ_in_range bodies q ltac:(lia)) as [bo E]. unfold rd at 1. rewrite E. cbn [bind].
    unfold per_rank. replace ((0 <=? r) && (r <? size)) with true by lia. cbn [bind].
    rewrite isum_snoc by lia. unfold cnt_of at 3. rewrite E. f_equal. lia.
Qed.

Lemma packed_body b bo i c : nthZ bodies b = Some bo -> 0 <= i < b_nPts bo -> 0 <= c < dim ->
  exists r idx, 0 <= r < size /\ b_bg bo r <= i < b_ed bo r /\
    bp_findProc size dim bodies b i = Ok r /\
    bp_getPackedGlobalIndex size dim bodies b i c = Ok idx /\
    idx = bp_offsets size dim bodies r + isum (cnt_of dim bodies r) 0 b + ((i - b_bg bo r) * dim + c) /\
    nthZ (body_layout size dim bodies) idx = Some (b, i, c).
Proof.
  intros E Hi Hc. pose proof (pack_body _ _ E) as Sp. destruct (owner_of bo i Sp Hi) as (r & Hr & Ho).
  pose proof (nthZ_Some_range _ _ _ E) as Hb.
  assert (F : bp_findProc size dim bodies b i = Ok r).
  { unfold bp_findProc. replace ((b <? 0) || (b >=? lenZ bodies)) with false by lia.
    unfold rd. rewrite E. cbn [bind]. now apply sb_findProc_ok. }
  exists r. eexists. split; [exact Hr|]. split; [exact Ho|]. split; [exact F|].
  split; [|split; [reflexivity|]].
  - unfold bp_getPackedGlobalIndex. rewrite F. cbn [bind].
    unfold bp_getGlobalIndex. replace ((b <? 0) || (b >=? lenZ bodies)) with false by lia.
    unfold rd at 1. rewrite E. cbn [bind]. unfold sb_getGlobalIndex.
    replace ((i <? 0) || (i >=? b_nPts bo)) with false by lia.
    replace ((c <? 0) || (c >=? dim)) with false by lia. cbn [bind].
    unfold per_rank at 1. replace ((0 <=? r) && (r <? size)) with true by lia. cbn [bind].
    rewrite fold_parts by lia. cbn [bind]. unfold rd. rewrite E. cbn [bind].
    unfold per_rank. replace ((0 <=? r) && (r <? size)) with true by lia. cbn [bind].
    rewrite sb_off by auto. f_equal. lia.
  - rewrite body_layout_eq. unfold bp_offsets. rewrite offsets_of_spec by lia.
    rewrite (isum_ext (bp_nLclAllProcs dim bodies) (fun q => lenZ (body_rank dim bodies q)))
      by (intros; symmetry; apply body_rank_len; lia).
    rewrite <- Z.add_assoc. apply flat_map_nth; [lia|]. unfold body_rank.
    rewrite (isum_ext (cnt_of dim bodies r) (fun q => lenZ (body_part dim bodies r q)))
      by (intros; symmetry; apply body_part_len; lia).
    apply flat_map_nth; [lia|]. unfold body_part. rewrite E. now apply body_block_nth.
Qed.

Lemma body_layout_In b i c : In (b, i, c) (body_layout size dim bodies) <->
  exists bo, nthZ bodies b = Some bo /\ 0 <= i < b_nPts bo /\ 0 <= c < dim.
Proof.
  split.
  - unfold body_layout. rewrite in_flat_map. intros (r & Hr & H). apply in_flat_map in H as (b' & Hb' & H).
    apply zrange_In in Hr. destruct (nthZ bodies b') as [bo|] eqn:E; [|destruct H].
    apply body_block_In in H as (i' & c' & Eu & Hi & Hc). injection Eu as -> -> ->.
    exists bo. split; [exact E|]. split; [|lia]. destruct (pack_body _ _ E) as [Hp Hs].
    pose proof (bg_mono bo 0 r (conj Hp Hs) ltac:(lia) ltac:(lia)) as M0.
    pose proof (bg_mono bo (r + 1) size (conj Hp Hs) ltac:(lia) ltac:(lia)) as M1.
    unfold b_bg in M0 at 1. rewrite isum_nil in M0 by lia. unfold b_bg in M1.
    rewrite isum_snoc, Hs in M1 by lia. unfold b_ed, b_bg in *. lia.
  - intros (bo & E & Hi & Hc). destruct (packed_body b bo i c E Hi Hc) as (r & idx & _ & _ & _ & _ & _ & N).
    eapply nthZ_In; eauto.
Qed.

Lemma body_layout_NoDup : NoDup (body_layout size dim bodies).
Proof.
  unfold body_layout. apply NoDup_flat_map; [apply zrange_NoDup| |].
  - intros r _. apply NoDup_flat_map; [apply zrange_NoDup| |].
    + intros b _. destruct (nthZ bodies b); [apply body_block_NoDup|constructor].
    + intros b b' u _ _ H H'. destruct (nthZ bodies b); [|destruct H]. destruct (nthZ bodies b'); [|destruct H'].
      apply body_block_In in H as (i & c & -> & _). apply body_block_In in H' as (i' & c' & E & _). congruence.
  - intros r r' u Hr Hr' H H'. apply zrange_In in Hr, Hr'.
    apply in_flat_map in H as (b & _ & H). apply in_flat_map in H' as (b' & _ & H').
    destruct (nthZ bodies b) as [bo|] eqn:E; [|destruct H]. destruct (nthZ bodies b') as [bo'|] eqn:E'; [|destruct H'].
    apply body_block_In in H as (i & c & -> & Hi & Hc). apply body_block_In in H' as (i' & c' & Eu & Hi' & Hc').
    injection Eu as <- <- <-. rewrite E in E'. injection E' as <-.
    eapply owner_unique_b; eauto. eapply pack_body; eauto.
Qed.

Lemma body_layout_len : lenZ (body_layout size dim bodies) = bp_nPts bodies * dim.
Proof.
  destruct Hok as (H1 & Hd & _).
  rewrite body_layout_eq, flat_map_lenZ.
  rewrite (isum_ext _ (fun r => isum (cnt_of dim bodies r) 0 (lenZ bodies)))
    by (intros; rewrite body_rank_len by lia; apply bp_cnt).
  rewrite isum_swap. unfold bp_nPts. rewrite (fold_cnt b_nPts). rewrite Z.add_0_l, <- isum_scal.
  apply isum_ext. intros b Hb. destruct (nthZ_in_range bodies b Hb) as [bo E]. rewrite E.
  destruct (pack_body _ _ E) as [_ Hs]. rewrite <- Hs, <- isum_scal. apply isum_ext. intros r Hr.
  unfold cnt_of. rewrite E. reflexivity.
Qed.

Lemma packed_body_rejects b i c : (forall bo, nthZ bodies b = Some bo -> ~ (0 <= i < b_nPts bo /\ 0 <= c < dim)) ->
  bp_getPackedGlobalIndex size dim bodies b i c = Err PETSC_ERR_ARG_SIZ.
Proof.
  intros H. unfold bp_getPackedGlobalIndex, bp_findProc, bp_getGlobalIndex.
  destruct (Z_lt_dec b 0) as [L|L]; [replace ((b <? 0) || (b >=? lenZ bodies)) with true by lia; reflexivity|].
  destruct (Z_le_dec (lenZ bodies) b) as [L'|L']; [replace ((b <? 0) || (b >=? lenZ bodies)) with true by lia; reflexivity|].
  replace ((b <? 0) || (b >=? lenZ bodies)) with false by lia.
  destruct (nthZ_in_range bodies b ltac:(lia)) as [bo E]. unfold rd at 1 2. rewrite E. cbn [bind].
  specialize (H bo E). unfold sb_findProc, sb_getGlobalIndex.
  destruct ((i <? 0) || (i >=? b_nPts bo)) eqn:Ei; [reflexivity|]. cbn [bind].
  destruct ((c <? 0) || (c >=? dim)) eqn:Ec; [reflexivity|]. exfalso. apply H. lia.
Qed.

Lemma findProc_rejects b i : (forall bo, nthZ bodies b = Some bo -> ~ (0 <= i < b_nPts bo)) ->
  bp_findProc size dim bodies b i = Err PETSC_ERR_ARG_SIZ.
Proof.
  intros H. unfold bp_findProc.
  destruct ((b <? 0) || (b >=? lenZ bodies)) eqn:Eb; [reflexivity|].
  destruct (nthZ_in_range bodies b ltac:(lia)) as [bo E]. unfold rd. rewrite E. cbn [bind].
  specialize (H bo E). unfold sb_findProc.
  destruct ((i <? 0) || (i >=? b_nPts bo)) eqn:Ei; [reflexivity|]. exfalso. apply H. lia.
Qed.
End Pack.

Lemma packed_body_bijection size dim bodies : pack_ok size dim bodies ->
  (forall b n i c, has_points bodies b n -> 0 <= i < n -> 0 <= c < dim ->
     exists idx, bp_getPackedGlobalIndex size dim bodies b i c = Ok idx /\ 0 <= idx < bp_nPts bodies * dim /\
       nthZ (body_layout size dim bodies) idx = Some (b, i, c)) /\
  (forall b i c b' i' c' idx, bp_getPackedGlobalIndex size dim bodies b i c = Ok idx ->
     bp_getPackedGlobalIndex size dim bodies b' i' c' = Ok idx -> (b, i, c) = (b', i', c')) /\
  (forall idx, 0 <= idx < bp_nPts bodies * dim ->
     exists b i c, bp_getPackedGlobalIndex size dim bodies b i c = Ok idx).
Proof.
  intros Hok.
  assert (A : forall b n i c, has_points bodies b n -> 0 <= i < n -> 0 <= c < dim ->
     exists idx, bp_getPackedGlobalIndex size dim bodies b i c = Ok idx /\ 0 <= idx < bp_nPts bodies * dim /\
       nthZ (body_layout size dim bodies) idx = Some (b, i, c)).
  { intros b n i c (bo & E & <-) Hi Hc.
    destruct (packed_body size dim bodies Hok b bo i c E Hi Hc) as (r & idx & _ & _ & _ & P & _ & N).
    exists idx. split; [exact P|]. split; [|exact N]. rewrite <- (body_layout_len size dim bodies Hok).
    eapply nthZ_Some_range; eauto. }
  assert (B : forall b i c idx, bp_getPackedGlobalIndex size dim bodies b i c = Ok idx ->
     nthZ (body_layout size dim bodies) idx = Some (b, i, c)).
  { intros b i c idx P. destruct (nthZ bodies b) as [bo|] eqn:E.
    - destruct (Z_le_dec 0 i); [destruct (Z_lt_dec i (b_nPts bo)); [destruct (Z_le_dec 0 c); [destruct (Z_lt_dec c dim)|]|]|].
      1: { destruct (A b (b_nPts bo) i c) as (idx' & P' & _ & N); [exists bo; auto|lia|lia|]. congruence. }
      all: rewrite packed_body_rejects in P; [discriminate|]; intros bo' E'; rewrite E in E'; injection E' as <-; lia.
    - rewrite packed_body_rejects in P; [discriminate|]. intros bo' E'. congruence. }
  split; [exact A|]. split.
  - intros b i c b' i' c' idx P P'. apply B in P, P'. congruence.
  - intros idx Hidx. rewrite <- (body_layout_len size dim bodies Hok) in Hidx.
    destruct (nthZ_in_range _ _ Hidx) as [[[b i] c] N]. exists b, i, c.
    assert (Hin : In (b, i, c) (body_layout size dim bodies)) by (eapply nthZ_In; eauto).
    apply (body_layout_In size dim bodies Hok) in Hin as (bo & E & Hi & Hc).
    destruct (A b (b_nPts bo) i c) as (idx' & P' & _ & N'); [exists bo; auto|lia|lia|].
    rewrite P'. f_equal. eapply nthZ_NoDup_inj; eauto. apply (body_layout_NoDup size dim bodies Hok).
Qed.

Lemma findProc_owner size dim bodies b n i : pack_ok size dim bodies -> has_points bodies b n -> 0 <= i < n ->
  exists r bo, bp_findProc size dim bodies b i = Ok r /\ 0 <= r < size /\ nthZ bodies b = Some bo /\
    b_bg bo r <= i < b_bg bo r + b_l bo r.
Proof.
  intros Hok (bo & E & <-) Hi. pose proof Hok as (_ & Hd & _).
  destruct (packed_body size dim bodies Hok b bo i 0 E Hi ltac:(lia)) as (r & idx & Hr & Ho & F & _).
  exists r, bo. auto.
Qed.
