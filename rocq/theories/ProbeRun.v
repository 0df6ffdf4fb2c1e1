(** Lemmas about the schedule of the probes, the volume probe and the time
    averages. *)
From Coq Require Import ZifyBool.
From Verif Require Import Prelude ZSum RSum TypesModel GridModel GridSpec GridProof MeshProof IndexModel IndexSpec IndexProof
  BoundaryModel BoundarySpec BoundaryProof OperatorModel OperatorSpec OperatorProof BStateProof MatModel ConvModel ConvProof DeltaModel ProbeModel ProbeSpec ProbeProof ProbeInterp.
Local Open Scope R_scope.

Lemma Rleb_spec a b : Rleb a b = true <-> a <= b.
Proof. unfold Rleb. destruct (Rle_dec a b); split; intros; try discriminate; auto; contradiction. Qed.

(** * Schedule *)
Definition schedb (c : pconf) (cl : call) : bool :=
  let '(n, t, U, P) := cl in (Z.rem n (pc_nmonitor c) =? 0)%Z && Rleb (pc_tstart c) t && Rleb t (pc_tend c).
Lemma schedb_spec c cl : pc_nmonitor c <> 0%Z -> schedb c cl = true <-> scheduled c cl.
Proof.
  intros Hn. destruct cl as [[[n t] U] P]. unfold schedb, scheduled. rewrite !andb_true_iff, !Rleb_spec, Z.eqb_eq.
  rewrite Z.rem_divide by auto. unfold Z.divide. tauto.
Qed.
Lemma selects_filter {A} (P : A -> Prop) b l : (forall a, b a = true <-> P a) -> selects P l (filter b l).
Proof.
  intros H. induction l as [|a t IH]; [constructor|]. cbn [filter]. destruct (b a) eqn:E.
  - constructor; [now apply H|auto].
  - constructor; [|auto]. rewrite <- H. congruence.
Qed.
Lemma selects_unique {A} (P : A -> Prop) l s : selects P l s -> forall s', selects P l s' -> s = s'.
Proof. induction 1; intros s' H'; inversion H'; subst; try contradiction; f_equal; auto. Qed.
Lemma selects_In {A} (P : A -> Prop) l s a : selects P l s -> In a s -> In a l /\ P a.
Proof. induction 1; intros Hin; [destruct Hin| |]; [destruct Hin as [<-|Hin]; [split; [now left|auto]|]|]; destruct (IHselects Hin); split; auto; now right. Qed.

Definition feed {S O} (m : mesh) (D : dec) (f : Z) (mv : S -> vec -> R -> res (S * list O)) (so : S * list O) (cl : call) : res (S * list O) :=
  let '(n, t, U, P) := cl in do (s', o) <- mv (fst so) (field_vec m D f U P) t; Ok (s', (snd so ++ o)%list).

Lemma monitor_take {S O} m D c (mv : S -> vec -> R -> res (S * list O)) s n t U P : mfacts m D -> fieldok m (pc_field c) -> pc_nmonitor c <> 0%Z ->
  scheduled c (n, t, U, P) -> monitor m D c mv s U P n t = mv s (field_vec m D (pc_field c) U P) t.
Proof.
  intros F Hf Hn Hp. unfold monitor. replace (pc_nmonitor c =? 0)%Z with false by lia.
  pose proof (proj2 (schedb_spec c (n, t, U, P) Hn) Hp) as Es. cbn [schedb] in Es. rewrite Es.
  unfold field_vec. pose proof (mf_dim _ _ F) as Hdm. destruct (Z.eqb_spec (pc_field c) 3) as [E|E].
  - destruct (Z.ltb_spec (pc_field c) (m_dim m)); [destruct Hdm; lia|reflexivity].
  - destruct Hf as [Hf|Hf]; [|contradiction]. destruct (Z.ltb_spec (pc_field c) (m_dim m)); [reflexivity|lia].
Qed.
Lemma monitor_skip {S O} m D c (mv : S -> vec -> R -> res (S * list O)) s n t U P : pc_nmonitor c <> 0%Z ->
  ~ scheduled c (n, t, U, P) -> monitor m D c mv s U P n t = Ok (s, []).
Proof.
  intros Hn Hp. unfold monitor. replace (pc_nmonitor c =? 0)%Z with false by lia.
  assert (Es : schedb c (n, t, U, P) = false) by (destruct (schedb c (n, t, U, P)) eqn:E; [apply schedb_spec in E; auto; contradiction|reflexivity]).
  cbn [schedb] in Es. rewrite Es. reflexivity.
Qed.
Lemma run_probe_sel {S O} m D c (mv : S -> vec -> R -> res (S * list O)) s calls sel : mfacts m D -> fieldok m (pc_field c) -> pc_nmonitor c <> 0%Z ->
  selects (scheduled c) calls sel -> run_probe m D c mv s calls = foldM (feed m D (pc_field c) mv) sel (s, []).
Proof.
  intros F Hf Hn Hsel. unfold run_probe. generalize (s, @nil O). clear s. induction Hsel as [|cl l s Hp Hsel IH|cl l s Hp Hsel IH]; intros so; [reflexivity| |];
    cbn [foldM]; destruct cl as [[[n t] U] P].
  - rewrite monitor_take by auto. cbn [feed].
    destruct (mv (fst so) (field_vec m D (pc_field c) U P) t) as [[s' o]|e|]; cbn [bind]; [apply IH|reflexivity|reflexivity].
  - rewrite monitor_skip by auto. cbn [bind]. rewrite app_nil_r. destruct so as [s0 o0]. cbn [fst snd]. apply IH.
Qed.

(** * Point probes *)
Section Point.
Context (m : mesh) (D : dec) (Hs : mesh_setup m D) (f : Z) (Hf : (0 <= f < m_dim m)%Z).
Let F := setup_facts m D Hs.
Context (loc : Z -> R).

Lemma feed_point r it (w : call -> pt -> R) sel : (0 <= r < nranks D)%Z ->
  (it = None \/ ((forall d, (0 <= d < m_dim m)%Z -> crd m f d 0 <= loc d < crd m f d (m_n m f d)) /\ it = Some (the_interp m f loc) /\ isPointOnLocalProc m D r f (pvec m loc) = Ok true)) ->
  (forall n t U P, In (n, t, U, P) sel -> field_values m D f U P (w (n, t, U, P))) ->
  forall e0 o0, (forall q, has_image (m_n m f) (periodic_dir m) q = false -> e0 q = 0) ->
  exists e1, foldM (feed m D f (probePointMonitorVec m D r f)) sel (mkPP it (map e0 (ghosted_points (m_dim m) D f r)), o0)
    = Ok (mkPP it (map e1 (ghosted_points (m_dim m) D f r)),
          (o0 ++ match it with None => [] | Some _ => map (fun cl => (call_time cl, wsum (m_dim m) (frac m f loc) (cell m f loc) (probe_ext m f (w cl)))) sel end)%list).
Proof.
  intros Hr Hit. induction sel as [|cl t IH]; intros Hw e0 o0 H0.
  - exists e0. cbn [foldM map]. destruct it; rewrite app_nil_r; reflexivity.
  - cbn [foldM]. destruct cl as [[[n tm] U] P]. cbn [feed]. unfold probePointMonitorVec. cbn [pp_svec pp_interp fst].
    rewrite (globalToLocal_ok m D Hs f Hf _ (w (n, tm, U, P)) r e0 Hr).
    2:{ apply (field_vec_value m D f U P); [exact F|left; exact Hf|apply Hw; now left]. }
    2:{ exact H0. }
    cbn [bind].
    assert (H1 : forall q, has_image (m_n m f) (periodic_dir m) q = false -> probe_ext m f (w (n, tm, U, P)) q = 0).
    { intros q Hq. unfold probe_ext. now rewrite Hq. }
    specialize (IH ltac:(intros; apply Hw; now right)).
    destruct Hit as [->|(Hl & -> & Hon)].
    + cbn [bind snd]. destruct (IH _ o0 H1) as (e1 & E). exists e1. rewrite !app_nil_r in *. exact E.
    + rewrite (interpolate_value m D Hs f Hf loc Hl r _ Hr Hon). cbn [bind snd].
      destruct (IH (probe_ext m f (w (n, tm, U, P))) (o0 ++ [(tm, wsum (m_dim m) (frac m f loc) (cell m f loc) (probe_ext m f (w (n, tm, U, P))))])%list H1) as (e1 & E).
      exists e1. etransitivity; [exact E|]. cbn [map call_time]. rewrite <- app_assoc. reflexivity.
Qed.

Lemma init_point r : (0 <= r < nranks D)%Z -> exists it,
  probePointInit m D r f loc = Ok (mkPP it (map (fun _ => 0) (ghosted_points (m_dim m) D f r))) /\
  (it = None /\ isPointOnLocalProc m D r f (pvec m loc) = Ok false \/
   (forall d, (0 <= d < m_dim m)%Z -> crd m f d 0 <= loc d < crd m f d (m_n m f d)) /\ it = Some (the_interp m f loc) /\ isPointOnLocalProc m D r f (pvec m loc) = Ok true).
Proof.
  intros Hr. unfold probePointInit. fold (pvec m loc).
  destruct (on_proc_dec m D Hs f Hf r loc Hr) as (b & Eb & Hb). rewrite Eb. cbn [bind]. destruct b.
  - assert (Hl : forall d, (0 <= d < m_dim m)%Z -> crd m f d 0 <= loc d < crd m f d (m_n m f d)).
    { intros d Hd. pose proof (proj1 Hb eq_refl d Hd). pose proof (local_range m D Hs f Hf r d Hr ltac:(destruct (mf_dim _ _ F); lia)).
      pose proof (crd_mono m D Hs f Hf d 0 (d_bg D f d r) Hd ltac:(lia) ltac:(lia) ltac:(lia)).
      pose proof (crd_mono m D Hs f Hf d (d_ed D f d r) (m_n m f d) Hd ltac:(lia) ltac:(lia) ltac:(lia)). lra. }
    rewrite (interp_created m D Hs f Hf loc Hl). cbn [bind]. eexists. split; [reflexivity|]. right. auto.
  - cbn [bind]. eexists. split; [reflexivity|]. left. auto.
Qed.
End Point.

(** * Volume probes *)
Section Volume.
Context (m : mesh) (D : dec) (Hs : mesh_setup m D) (f : Z) (Hf : fieldok m f) (atol : R) (lo hi : Z -> R).
Let F := setup_facts m D Hs.
Let Hdm := mf_dim _ _ F.

Definition vlow (d : Z) : Z := if (d <? m_dim m)%Z then lower_boundR (map (crd m f d) (zrange 0 (m_n m f d))) (lo d - atol) else 0%Z.
Definition vup (d : Z) : Z := if (d <? m_dim m)%Z then upper_boundR (map (crd m f d) (zrange 0 (m_n m f d))) (hi d + atol) else 1%Z.

Lemma vlow_spec d : (0 <= d < m_dim m)%Z -> (0 <= vlow d <= m_n m f d)%Z /\ forall i, (0 <= i < m_n m f d)%Z -> ((vlow d <= i)%Z <-> lo d - atol <= crd m f d i).
Proof.
  intros Hd. unfold vlow. destruct (Z.ltb_spec d (m_dim m)); [|lia]. destruct (lower_line m D f d (lo d - atol) Hs Hf Hd) as (A & B). split; [exact A|].
  intros i Hi. specialize (B i Hi). split; intros X.
  - apply Rnot_lt_le. intros Y. apply B in Y. lia.
  - destruct (Z_lt_dec i (lower_boundR (map (crd m f d) (zrange 0 (m_n m f d))) (lo d - atol))) as [Y|Y]; [|lia]. apply B in Y. lra.
Qed.
Lemma vup_spec d : (0 <= d < m_dim m)%Z -> (0 <= vup d <= m_n m f d)%Z /\ forall i, (0 <= i < m_n m f d)%Z -> ((i < vup d)%Z <-> crd m f d i <= hi d + atol).
Proof. intros Hd. unfold vup. destruct (Z.ltb_spec d (m_dim m)); [|lia]. apply (upper_line m D f d (hi d + atol) Hs Hf Hd). Qed.

Lemma vlow2 : m_dim m = 2%Z -> vlow 2 = 0%Z /\ vup 2 = 1%Z.
Proof. intros E. unfold vlow, vup. rewrite E. auto. Qed.

Lemma getInfo_eq : getInfo m f atol lo hi = Ok ([vlow 0; vlow 1; vlow 2]%Z, [vup 0 - vlow 0; vup 1 - vlow 1; vup 2 - vlow 2]%Z).
Proof.
  unfold getInfo. rewrite (mapM_ok _ (fun d => (vlow d, (vup d - vlow d)%Z))).
  - cbn [bind]. change (zrange 0 3) with [0; 1; 2]%Z. reflexivity.
  - intros d Hd. apply zrange_In in Hd. unfold vlow, vup. destruct (Z.ltb_spec d (m_dim m)); [|reflexivity].
    rewrite (gridline_eq m D f d Hs Hf) by lia. reflexivity.
Qed.

Lemma usable_iff : box_usable m f atol lo hi <-> forall d, (0 <= d < m_dim m)%Z -> (0 <= vup d - vlow d)%Z.
Proof.
  split.
  - intros H d Hd. destruct (vlow_spec d Hd) as (A & B), (vup_spec d Hd) as (A' & B').
    destruct (Z_le_dec (vlow d) (vup d)) as [|Hn]; [lia|]. exfalso. apply (H d (vup d) Hd ltac:(lia)). split.
    + apply Rnot_le_lt. intros X. apply B' in X; lia.
    + apply Rnot_le_lt. intros X. apply B in X; lia.
  - intros H d i Hd Hi (X & Y). specialize (H d Hd). destruct (vlow_spec d Hd) as (A & B), (vup_spec d Hd) as (A' & B').
    specialize (B i Hi). specialize (B' i Hi).
    assert (~ (vlow d <= i)%Z) by (intros Z; apply B in Z; lra). assert (~ (i < vup d)%Z) by (intros Z; apply B' in Z; lra). lia.
Qed.

Lemma in_range_idx d i : (0 <= d < m_dim m)%Z -> (0 <= i < m_n m f d)%Z -> in_range (lo d - atol) (crd m f d i) (hi d + atol) = ((vlow d <=? i) && (i <? vup d))%Z.
Proof.
  intros Hd Hi. destruct (vlow_spec d Hd) as (_ & B), (vup_spec d Hd) as (_ & B'). specialize (B i Hi). specialize (B' i Hi).
  apply eq_true_iff_eq. unfold in_range. rewrite !andb_true_iff, !Rleb_spec, Z.leb_le, Z.ltb_lt. tauto.
Qed.

Lemma in_sub_eq p : interior (m_n m f) p -> in_sub [vlow 0; vlow 1; vlow 2]%Z [vup 0 - vlow 0; vup 1 - vlow 1; vup 2 - vlow 2]%Z p = Ok (in_box m f atol lo hi p).
Proof.
  intros Hp. destruct p as [[i j] k]. unfold in_sub.
  change (rd [vlow 0; vlow 1; vlow 2]%Z 0) with (Ok (vlow 0)). change (rd [vlow 0; vlow 1; vlow 2]%Z 1) with (Ok (vlow 1)). change (rd [vlow 0; vlow 1; vlow 2]%Z 2) with (Ok (vlow 2)).
  change (rd [vup 0 - vlow 0; vup 1 - vlow 1; vup 2 - vlow 2]%Z 0) with (Ok (vup 0 - vlow 0)%Z).
  change (rd [vup 0 - vlow 0; vup 1 - vlow 1; vup 2 - vlow 2]%Z 1) with (Ok (vup 1 - vlow 1)%Z).
  change (rd [vup 0 - vlow 0; vup 1 - vlow 1; vup 2 - vlow 2]%Z 2) with (Ok (vup 2 - vlow 2)%Z).
  cbn [bind]. f_equal. destruct Hp as (Hi & Hj & Hk). unfold in_box.
  destruct Hdm as [E|E]; rewrite E.
  - change (zrange 0 2) with [0; 1]%Z. cbn [forallb]. change (pc (i, j, k) 0) with i. change (pc (i, j, k) 1) with j.
    rewrite !in_range_idx by lia. destruct (vlow2 E) as [-> ->].
    destruct (mf_flat _ _ F f Hf E) as (En & _). rewrite En in Hk. lia.
  - change (zrange 0 3) with [0; 1; 2]%Z. cbn [forallb]. change (pc (i, j, k) 0) with i. change (pc (i, j, k) 1) with j. change (pc (i, j, k) 2) with k.
    rewrite !in_range_idx by lia. lia.
Qed.

Lemma filter_line d : (0 <= d < m_dim m)%Z -> (vlow d <= vup d)%Z ->
  map (crd m f d) (zrange (vlow d) (vup d)) = filter (fun x => in_range (lo d - atol) x (hi d + atol)) (map (crd m f d) (zrange 0 (m_n m f d))).
Proof.
  intros Hd Hle. destruct (vlow_spec d Hd) as (A & _), (vup_spec d Hd) as (A' & _).
  rewrite (zrange_app 0 (vlow d) (m_n m f d)) by lia. rewrite (zrange_app (vlow d) (vup d) (m_n m f d)) by lia.
  rewrite !map_app, !filter_app.
  rewrite (filter_none _ (map (crd m f d) (zrange 0 (vlow d)))).
  2:{ intros x Hx. apply in_map_iff in Hx. destruct Hx as (i & <- & Hi). apply zrange_In in Hi. rewrite in_range_idx by (auto; lia). lia. }
  rewrite (filter_none _ (map (crd m f d) (zrange (vup d) (m_n m f d)))).
  2:{ intros x Hx. apply in_map_iff in Hx. destruct Hx as (i & <- & Hi). apply zrange_In in Hi. rewrite in_range_idx by (auto; lia). lia. }
  rewrite filter_all; [rewrite app_nil_r; reflexivity|].
  intros x Hx. apply in_map_iff in Hx. destruct Hx as (i & <- & Hi). apply zrange_In in Hi. rewrite in_range_idx by (auto; lia). lia.
Qed.

Definition the_grid : list (list R) :=
  map (fun d => filter (fun x => in_range (lo d - atol) x (hi d + atol)) (map (crd m f d) (zrange 0 (m_n m f d)))) (zrange 0 (m_dim m)).

Lemma rd3 (a : Z -> Z) d : (0 <= d < 3)%Z -> rd [a 0; a 1; a 2]%Z d = Ok (a d).
Proof. intros Hd. assert (d = 0 \/ d = 1 \/ d = 2)%Z as [->|[->| ->]] by lia; reflexivity. Qed.

Lemma createGrid_ok : box_usable m f atol lo hi ->
  createGrid m f [vlow 0; vlow 1; vlow 2]%Z [vup 0 - vlow 0; vup 1 - vlow 1; vup 2 - vlow 2]%Z = Ok the_grid.
Proof.
  intros Hu. rewrite usable_iff in Hu. apply mapM_ok. intros d Hd. apply zrange_In in Hd.
  rewrite (rd3 vlow) by (destruct Hdm; lia). rewrite (rd3 (fun d => vup d - vlow d)%Z) by (destruct Hdm; lia). cbn [bind].
  specialize (Hu d Hd). destruct (Z.ltb_spec (vup d - vlow d) 0); [lia|]. rewrite <- filter_line by (auto; lia).
  replace (vlow d + (vup d - vlow d))%Z with (vup d) by lia. apply mapM_ok. intros i Hi. apply zrange_In in Hi.
  destruct (vlow_spec d Hd) as (A & _), (vup_spec d Hd) as (A' & _). eapply crd_read; eauto. lia.
Qed.
Lemma createGrid_exc : ~ box_usable m f atol lo hi ->
  createGrid m f [vlow 0; vlow 1; vlow 2]%Z [vup 0 - vlow 0; vup 1 - vlow 1; vup 2 - vlow 2]%Z = Err EXC.
Proof.
  intros Hu. unfold createGrid.
  assert (G : forall l, (forall d, In d l -> (0 <= d < m_dim m)%Z) -> (exists d, In d l /\ (vup d - vlow d < 0)%Z) ->
    mapM (fun d => do s <- rd [vlow 0; vlow 1; vlow 2]%Z d; do n <- rd [vup 0 - vlow 0; vup 1 - vlow 1; vup 2 - vlow 2]%Z d;
                   if (n <? 0)%Z then Err EXC else mapM (m_coord m f d) (zrange s (s + n))) l = Err EXC).
  { induction l as [|d t IH]; intros Hl (e & He & Hneg); [destruct He|]. cbn [mapM].
    pose proof (Hl d (or_introl eq_refl)) as Hd.
    rewrite (rd3 vlow) by (destruct Hdm; lia). rewrite (rd3 (fun d => vup d - vlow d)%Z) by (destruct Hdm; lia). cbn [bind].
    destruct (Z.ltb_spec (vup d - vlow d) 0) as [H1|H1]; [reflexivity|].
    rewrite (mapM_ok _ (crd m f d)).
    2:{ intros i Hi. apply zrange_In in Hi. destruct (vlow_spec d Hd) as (A & _), (vup_spec d Hd) as (A' & _). eapply crd_read; eauto. lia. }
    cbn [bind]. rewrite IH; [reflexivity|intros; apply Hl; now right|]. destruct He as [<-|He]; [lia|eauto]. }
  apply G; [intros d Hd; now apply zrange_In in Hd|].
  destruct (Z_lt_dec (vup 0 - vlow 0) 0) as [H0|H0]; [exists 0%Z; split; [apply zrange_In; destruct Hdm; lia|auto]|].
  destruct (Z_lt_dec (vup 1 - vlow 1) 0) as [H1|H1]; [exists 1%Z; split; [apply zrange_In; destruct Hdm; lia|auto]|].
  destruct (Z.eq_dec (m_dim m) 3) as [E|E]; [destruct (Z_lt_dec (vup 2 - vlow 2) 0) as [H2|H2]; [exists 2%Z; split; [apply zrange_In; destruct Hdm; lia|auto]|]|].
  - exfalso. apply Hu. apply usable_iff. intros d Hd. assert (d = 0 \/ d = 1 \/ d = 2)%Z as [->|[->| ->]] by lia; lia.
  - exfalso. apply Hu. apply usable_iff. intros d Hd. assert (d = 0 \/ d = 1)%Z as [->| ->] by (destruct Hdm; lia); lia.
Qed.

Lemma wr_snoc {A} (l : list A) x y t : wr (l ++ y :: t) (lenZ l) x = Ok (l ++ x :: t)%list.
Proof.
  unfold wr. pose proof (lenZ_nonneg l). rewrite lenZ_app, lenZ_cons. pose proof (lenZ_nonneg t).
  destruct (Z.leb_spec 0 (lenZ l)); [|lia]. destruct (Z.ltb_spec (lenZ l) (lenZ l + (1 + lenZ t))); [|lia]. cbn [andb]. f_equal.
  unfold lenZ. rewrite Nat2Z.id. clear. induction l as [|a l IH]; [reflexivity|]. cbn [app length upd_nat]. now rewrite IH.
Qed.

Lemma nPts_val : getNPts [vup 0 - vlow 0; vup 1 - vlow 1; vup 2 - vlow 2]%Z = ((vup 0 - vlow 0) * (vup 1 - vlow 1) * (vup 2 - vlow 2))%Z.
Proof. unfold getNPts. cbn [fold_left]. lia. Qed.

Lemma in_box_box p : interior (m_n m f) p -> in_box m f atol lo hi p = true -> In p (box (vlow 0) (vup 0) (vlow 1) (vup 1) (vlow 2) (vup 2)).
Proof.
  intros Hp Hb. destruct p as [[i j] k]. apply box_In. pose proof (in_sub_eq _ Hp) as E. rewrite Hb in E. unfold in_sub in E.
  change (rd [vlow 0; vlow 1; vlow 2]%Z 0) with (Ok (vlow 0)) in E. change (rd [vlow 0; vlow 1; vlow 2]%Z 1) with (Ok (vlow 1)) in E. change (rd [vlow 0; vlow 1; vlow 2]%Z 2) with (Ok (vlow 2)) in E.
  change (rd [vup 0 - vlow 0; vup 1 - vlow 1; vup 2 - vlow 2]%Z 0) with (Ok (vup 0 - vlow 0)%Z) in E.
  change (rd [vup 0 - vlow 0; vup 1 - vlow 1; vup 2 - vlow 2]%Z 1) with (Ok (vup 1 - vlow 1)%Z) in E.
  change (rd [vup 0 - vlow 0; vup 1 - vlow 1; vup 2 - vlow 2]%Z 2) with (Ok (vup 2 - vlow 2)%Z) in E.
  cbn [bind] in E. injection E as E. lia.
Qed.

Lemma createIS_ok r : box_usable m f atol lo hi -> (0 <= r < nranks D)%Z ->
  createIS m D r f [vlow 0; vlow 1; vlow 2]%Z [vup 0 - vlow 0; vup 1 - vlow 1; vup 2 - vlow 2]%Z =
  Ok (map (natural (m_n m f)) (box_points m D f atol lo hi r), map (fun p => ao_apply D (m_n m f) f (natural (m_n m f) p)) (box_points m D f atol lo hi r)).
Proof.
  intros Hu Hr. rewrite usable_iff in Hu. pose proof (Hu 0%Z ltac:(destruct Hdm; lia)) as U0. pose proof (Hu 1%Z ltac:(destruct Hdm; lia)) as U1.
  assert (U2 : (0 <= vup 2 - vlow 2)%Z).
  { destruct Hdm as [E|E]; [destruct (vlow2 E) as [-> ->]; lia|apply Hu; lia]. }
  unfold createIS. rewrite nPts_val. set (nPts := ((vup 0 - vlow 0) * (vup 1 - vlow 1) * (vup 2 - vlow 2))%Z).
  assert (HnP : (0 <= nPts)%Z) by (unfold nPts; apply Z.mul_nonneg_nonneg; [apply Z.mul_nonneg_nonneg|]; lia).
  destruct (Z.ltb_spec nPts 0); [lia|].
  assert (Hint : forall p, In p (local_points D f r) -> interior (m_n m f) p) by (intros p Hp; eapply local_interior; eauto; apply (mf_dec _ _ F); auto).
  assert (Hlen : (lenZ (box_points m D f atol lo hi r) <= nPts)%Z).
  { unfold nPts. rewrite <- (box_lenZ (vlow 0) (vup 0) (vlow 1) (vup 1) (vlow 2) (vup 2)) by lia. unfold lenZ. apply inj_le. apply NoDup_incl_length.
    - apply NoDup_filter. apply box_NoDup.
    - intros p Hp. apply filter_In in Hp. destruct Hp as [Hp Hb]. apply in_box_box; auto. }
  assert (G : forall (l2 l1 : list pt), local_points D f r = (l1 ++ l2)%list ->
    foldM (fun ic (p : pt) => let '(indices, count) := ic in let '(i, j, k) := p in
      do b <- in_sub [vlow 0; vlow 1; vlow 2]%Z [vup 0 - vlow 0; vup 1 - vlow 1; vup 2 - vlow 2]%Z p;
      if b : bool then do indices' <- wr indices count (k * (m_n m f 1 * m_n m f 0) + j * m_n m f 0 + i)%Z; Ok (indices', (count + 1)%Z)
      else Ok (indices, count)) l2
      ((map (natural (m_n m f)) (filter (in_box m f atol lo hi) l1) ++ repeat 0%Z (Z.to_nat (nPts - lenZ (filter (in_box m f atol lo hi) l1))))%list, lenZ (filter (in_box m f atol lo hi) l1))
    = Ok ((map (natural (m_n m f)) (box_points m D f atol lo hi r) ++ repeat 0%Z (Z.to_nat (nPts - lenZ (box_points m D f atol lo hi r))))%list, lenZ (box_points m D f atol lo hi r))).
  { induction l2 as [|p l2 IH]; intros l1 El.
    - cbn [foldM]. rewrite app_nil_r in El. unfold box_points. rewrite El. reflexivity.
    - cbn [foldM]. destruct p as [[i j] k]. change (@fst Z) with (@fst Z).
      rewrite in_sub_eq by (apply Hint; rewrite El; apply in_or_app; right; now left). cbn [bind].
      assert (El' : local_points D f r = ((l1 ++ [(i, j, k)]) ++ l2)%list) by (rewrite <- app_assoc; exact El).
      specialize (IH _ El'). rewrite filter_app in IH. cbn [filter] in IH.
      destruct (in_box m f atol lo hi (i, j, k)) eqn:Eb.
      + set (fl := filter (in_box m f atol lo hi) l1) in *.
        assert (Hroom : (lenZ fl < nPts)%Z).
        { unfold box_points in Hlen. rewrite El', !filter_app in Hlen. cbn [filter] in Hlen. rewrite Eb in Hlen. fold fl in Hlen.
          rewrite !lenZ_app in Hlen. change (lenZ [(i, j, k)]) with 1%Z in Hlen. pose proof (lenZ_nonneg (filter (in_box m f atol lo hi) l2)). change (Z * Z * Z)%type with pt in *. fold fl in Hlen. lia. }
        replace (Z.to_nat (nPts - lenZ fl)) with (S (Z.to_nat (nPts - (lenZ fl + 1)))) by lia. cbn [repeat].
        rewrite <- (lenZ_map (natural (m_n m f)) fl) at 2. rewrite wr_snoc. cbn [bind].
        rewrite map_app in IH. rewrite lenZ_app in IH. change (lenZ [(i, j, k)]) with 1%Z in IH. rewrite <- app_assoc in IH. cbn [map app] in IH.
        
        replace (natural (m_n m f) (i, j, k)) with (k * (m_n m f 1 * m_n m f 0) + j * m_n m f 0 + i)%Z in IH by (unfold natural; ring).
        exact IH.
      + rewrite app_nil_r in IH. exact IH. }
  specialize (G (local_points D f r) [] eq_refl). cbn [filter map app] in G. change (lenZ (@nil (Z * Z * Z))) with 0%Z in G. rewrite Z.sub_0_r in G.
  match goal with |- context [foldM ?f ?l ?s] => change (foldM f l s) with (foldM f l (repeat 0%Z (Z.to_nat nPts), 0%Z)) end.
  etransitivity; [apply f_equal2; [exact G|reflexivity]|]. cbn [bind fst snd].
  assert (Ef : firstn (Z.to_nat (lenZ (box_points m D f atol lo hi r))) (map (natural (m_n m f)) (box_points m D f atol lo hi r) ++ repeat 0%Z (Z.to_nat (nPts - lenZ (box_points m D f atol lo hi r))))%list
               = map (natural (m_n m f)) (box_points m D f atol lo hi r)).
  { unfold lenZ at 1. rewrite Nat2Z.id. rewrite <- (map_length (natural (m_n m f))). rewrite firstn_app, Nat.sub_diag, firstn_all. cbn [firstn]. apply app_nil_r. }
  rewrite Ef, map_map. reflexivity.
Qed.

Definition the_vprobe : vprobe :=
  mkVP the_grid (map (fun r => map (natural (m_n m f)) (box_points m D f atol lo hi r)) (zrange 0 (nranks D)))
       (map (fun r => map (fun p => ao_apply D (m_n m f) f (natural (m_n m f) p)) (box_points m D f atol lo hi r)) (zrange 0 (nranks D))).
Lemma volume_init_ok : box_usable m f atol lo hi -> probeVolumeInit m D f atol lo hi = Ok the_vprobe.
Proof.
  intros Hu. unfold probeVolumeInit. rewrite getInfo_eq. cbn [bind]. rewrite createGrid_ok by auto. cbn [bind].
  rewrite (mapM_ok _ (fun r => (map (natural (m_n m f)) (box_points m D f atol lo hi r), map (fun p => ao_apply D (m_n m f) f (natural (m_n m f) p)) (box_points m D f atol lo hi r)))).
  2:{ intros r Hr. apply zrange_In in Hr. now apply createIS_ok. }
  cbn [bind]. rewrite !map_map. reflexivity.
Qed.
Lemma volume_init_exc : ~ box_usable m f atol lo hi -> probeVolumeInit m D f atol lo hi = Err EXC.
Proof. intros Hu. unfold probeVolumeInit. rewrite getInfo_eq. cbn [bind]. rewrite createGrid_exc by auto. reflexivity. Qed.

Definition all_points : list pt := flat_map (box_points m D f atol lo hi) (zrange 0 (nranks D)).

Lemma petsc_pos p r : In p (box_points m D f atol lo hi r) -> (0 <= r < nranks D)%Z ->
  nthZ (field_layout D f) (ao_apply D (m_n m f) f (natural (m_n m f) p)) = Some p.
Proof.
  intros Hp Hr. apply filter_In in Hp. destruct Hp as [Hp _]. pose proof (mf_dec _ _ F f Hf) as Hd. apply ao_interior; auto.
  eapply local_interior; eauto.
Qed.

Lemma sub_value v w : (forall g p, nthZ (field_layout D f) g = Some p -> v g = w p) ->
  subVector m f the_vprobe v = Ok (map w all_points).
Proof.
  intros Hv. unfold subVector. cbn [vp_petsc the_vprobe].
  assert (E : concat (map (fun r => map (fun p => ao_apply D (m_n m f) f (natural (m_n m f) p)) (box_points m D f atol lo hi r)) (zrange 0 (nranks D)))
              = map (fun p => ao_apply D (m_n m f) f (natural (m_n m f) p)) all_points).
  { unfold all_points. induction (zrange 0 (nranks D)) as [|r t IH]; [reflexivity|]. cbn [map concat flat_map]. rewrite map_app, IH. reflexivity. }
  rewrite E. clear E.
  assert (G : forall l, (forall p, In p l -> In p all_points) ->
    mapM (fun g => if (0 <=? g)%Z && (g <? npoints (m_n m f))%Z then Ok (v g) else Err PETSC_ERR_ARG_OUTOFRANGE)
      (map (fun p => ao_apply D (m_n m f) f (natural (m_n m f) p)) l) = Ok (map w l)).
  { induction l as [|p t IH]; intros Hl; [reflexivity|]. cbn [map mapM].
    pose proof (Hl p (or_introl eq_refl)) as Hp. unfold all_points in Hp. apply in_flat_map in Hp. destruct Hp as (r & Hr & Hp). apply zrange_In in Hr.
    pose proof (petsc_pos p r Hp Hr) as En. pose proof (nthZ_Some_range _ _ _ En) as Rg.
    pose proof (mf_sizes _ _ F f Hf) as (_ & N0 & N1 & N2 & _).
    rewrite (field_layout_len D (m_n m f) f) in Rg by (try lia; apply (mf_dec _ _ F); auto).
    replace ((0 <=? _)%Z && _) with true by (symmetry; lia). cbn [bind]. rewrite IH by (intros; apply Hl; now right). cbn [bind]. rewrite (Hv _ _ En). reflexivity. }
  apply G; auto.
Qed.
End Volume.

(** * Samples and time averages *)
Definition vstep (n_sum : Z) (ao : vacc * list precord) (s : sample) : vacc * list precord :=
  let (A', o) := probeVolumeMonitorVec n_sum (fst ao) (snd s) (fst s) in (A', (snd ao ++ o)%list).

Lemma feed_volume m D (Hs : mesh_setup m D) f (Hf : fieldok m f) atol lo hi n_sum (w : call -> pt -> R) sel :
  (forall n t U P, In (n, t, U, P) sel -> field_values m D f U P (w (n, t, U, P))) ->
  forall ao, foldM (feed m D f (volumeMonitorVec m f (the_vprobe m D f atol lo hi) n_sum)) sel ao
    = Ok (fold_left (vstep n_sum) (map (fun cl => (call_time cl, map (w cl) (all_points m D f atol lo hi))) sel) ao).
Proof.
  induction sel as [|cl t IH]; intros Hw ao; [reflexivity|]. cbn [foldM map fold_left]. destruct cl as [[[n tm] U] P]. cbn [feed].
  unfold volumeMonitorVec at 1. rewrite (sub_value m D Hs f Hf atol lo hi _ (w (n, tm, U, P))).
  2:{ apply (field_vec_value m D f U P); [exact (setup_facts m D Hs)|exact Hf|apply Hw; now left]. }
  cbn [bind]. unfold vstep at 2. cbn [fst snd call_time]. change (Z * Z * Z)%type with pt in *.
  destruct (probeVolumeMonitorVec n_sum (fst ao) (map (w (n, tm, U, P)) (all_points m D f atol lo hi)) tm) as [A' o]. apply IH. intros; apply Hw; now right.
Qed.

Lemma records_plain ss : forall rs, fold_left (vstep 0) ss (vacc0, rs) = (vacc0, (rs ++ map (fun s => mkRec (fst s) None (snd s)) ss)%list).
Proof.
  induction ss as [|s t IH]; intros rs; [cbn [fold_left map]; now rewrite app_nil_r|]. cbn [fold_left map]. unfold vstep at 2. cbn [fst snd].
  unfold probeVolumeMonitorVec. cbn [Z.eqb negb]. rewrite IH. rewrite <- app_assoc. reflexivity.
Qed.

Lemma nthZ_snoc_if {A} (l : list A) x i : nthZ (l ++ [x]) i = if (i =? lenZ l)%Z then Some x else nthZ l i.
Proof.
  unfold nthZ, lenZ. destruct (Z.ltb_spec i 0) as [H|H].
  - destruct (Z.eqb_spec i (Z.of_nat (length l))); [lia|reflexivity].
  - destruct (Z.eqb_spec i (Z.of_nat (length l))) as [E|E].
    + rewrite nth_error_app2 by lia. replace (Z.to_nat i - length l)%nat with 0%nat by lia. reflexivity.
    + destruct (Z_lt_dec i (Z.of_nat (length l))).
      * now rewrite nth_error_app1 by lia.
      * rewrite nth_error_app2 by lia. transitivity (@None A); [|symmetry; apply nth_error_None; lia].
        apply nth_error_None. cbn [length]. lia.
Qed.
Lemma nthZ_addl a b e x y : nthZ a e = Some x -> nthZ b e = Some y -> nthZ (addl a b) e = Some (x + y).
Proof.
  unfold nthZ, addl. destruct (e <? 0)%Z; [discriminate|]. generalize (Z.to_nat e). clear e. intros n. revert a b.
  induction n as [|n IH]; intros [|a0 a] [|b0 b]; cbn; try discriminate; [intros [= ->] [= ->]; reflexivity|apply IH].
Qed.
Lemma addl_len a b : lenZ a = lenZ b -> lenZ (addl a b) = lenZ a.
Proof. unfold addl, lenZ. intros E. rewrite map_length, combine_length. lia. Qed.

Definition acc_inv (k N : Z) (ss : list sample) (ao : vacc * list precord) : Prop :=
  va_count (fst ao) = (lenZ ss mod k)%Z /\
  (match va_dvec (fst ao) with
   | None => (lenZ ss mod k)%Z = 0%Z
   | Some d => lenZ d = N /\ forall e, (0 <= e < N)%Z -> nthZ d e = Some (zsum (fun i => sample_value ss ((lenZ ss / k) * k + i) e) 0 (lenZ ss mod k))
   end) /\ averaged k N ss (snd ao).

Lemma sample_value_snoc ss s i e : (i < lenZ ss)%Z -> sample_value (ss ++ [s]) i e = sample_value ss i e.
Proof. intros Hi. unfold sample_value. rewrite nthZ_snoc_if. destruct (Z.eqb_spec i (lenZ ss)); [lia|reflexivity]. Qed.
Lemma sample_value_last ss s e x : nthZ (snd s) e = Some x -> sample_value (ss ++ [s]) (lenZ ss) e = x.
Proof. intros Hi. unfold sample_value. rewrite nthZ_snoc_if, Z.eqb_refl, Hi. reflexivity. Qed.

Lemma acc_step n_sum N ss s ao : n_sum <> 0%Z -> lenZ (snd s) = N -> acc_inv (Z.abs n_sum) N ss ao -> acc_inv (Z.abs n_sum) N (ss ++ [s]) (vstep n_sum ao s).
Proof.
  intros Hn HN (Hc & Hd & Ha). set (k := Z.abs n_sum) in *. assert (Hk : (0 < k)%Z) by lia.
  pose proof (lenZ_nonneg ss) as HL. set (L := lenZ ss) in *. pose proof (Z.div_mod L k ltac:(lia)) as DM. pose proof (Z.mod_pos_bound L k Hk) as MB.
  set (q := (L / k)%Z) in *. set (c := (L mod k)%Z) in *.
  assert (Hq : (0 <= q)%Z) by (apply Z.div_pos; lia).
  unfold vstep, probeVolumeMonitorVec. replace (n_sum =? 0)%Z with false by lia. cbn [negb]. rewrite Hc.
  set (d0 := match va_dvec (fst ao) with None => map (fun _ => 0) (snd s) | Some x => x end).
  assert (H0 : lenZ d0 = N /\ forall e, (0 <= e < N)%Z -> nthZ d0 e = Some (zsum (fun i => sample_value ss (q * k + i) e) 0 c)).
  { unfold d0. destruct (va_dvec (fst ao)) as [d|]; [exact Hd|]. split; [now rewrite lenZ_map|]. intros e He.
    rewrite nthZ_map. destruct (nthZ_in_range (snd s) e ltac:(lia)) as [x ->]. cbn [option_map]. rewrite Hd. rewrite zsum_nil by lia. reflexivity. }
  clearbody d0. destruct H0 as [H0 H1].
  set (d1 := addl d0 (snd s)).
  assert (H2 : lenZ d1 = N) by (unfold d1; rewrite addl_len; congruence).
  assert (H3 : forall e, (0 <= e < N)%Z -> nthZ d1 e = Some (zsum (fun i => sample_value (ss ++ [s]) (q * k + i) e) 0 (c + 1))).
  { intros e He. destruct (nthZ_in_range (snd s) e ltac:(lia)) as [x Ex]. unfold d1. rewrite (nthZ_addl _ _ _ _ _ (H1 e He) Ex). f_equal.
    rewrite (zsum_snoc' _ 0 c) by lia. f_equal.
    - apply zsum_ext. intros i Hi. rewrite sample_value_snoc; [reflexivity|]. fold L. lia.
    - replace (q * k + c)%Z with L by lia. symmetry. apply sample_value_last. auto. }
  clearbody d1.
  assert (HL1 : lenZ (ss ++ [s])%list = (L + 1)%Z) by (rewrite lenZ_app; reflexivity).
  assert (Hold : forall j, (0 <= j < q)%Z -> forall i, (0 <= i < k)%Z -> (j * k + i < L)%Z).
  { intros j Hj i Hi. assert ((j + 1) * k <= q * k)%Z by (apply Z.mul_le_mono_nonneg_r; lia). lia. }
  destruct Ha as [Hlen Hrec]. fold L in Hlen. fold q in Hlen.
  assert (Hrec' : forall j rec, nthZ (snd ao) j = Some rec ->
    pr_count rec = Some k /\ (exists s0, nthZ (ss ++ [s]) (j * k + k - 1) = Some s0 /\ pr_time rec = fst s0) /\ lenZ (pr_data rec) = N /\
    forall e, (0 <= e < N)%Z -> nthZ (pr_data rec) e = Some (zsum (fun i => sample_value (ss ++ [s]) (j * k + i) e) 0 k / IZR k)).
  { intros j rec Hj. pose proof (nthZ_Some_range _ _ _ Hj) as Rj. rewrite Hlen in Rj. destruct (Hrec j rec Hj) as (A & (s0 & B & B') & C & E).
    split; [exact A|]. split; [exists s0; split; [|exact B']|split; [exact C|]].
    - rewrite nthZ_snoc_if. pose proof (nthZ_Some_range _ _ _ B). destruct (Z.eqb_spec (j * k + k - 1) (lenZ ss)); [lia|exact B].
    - intros e He. rewrite (E e He). do 2 f_equal. apply zsum_ext. intros i Hi. rewrite sample_value_snoc; [reflexivity|]. fold L. apply Hold; lia. }
  assert (Hrem : (Z.rem (c + 1) n_sum =? 0)%Z = (c + 1 =? k)%Z).
  { apply eq_true_iff_eq. rewrite !Z.eqb_eq, Z.rem_divide by auto. rewrite <- Z.divide_abs_l. fold k. split.
    - intros [z Ez]. assert (z = 1)%Z by nia. nia.
    - intros ->. exists 1%Z. lia. }
  rewrite Hrem. destruct (Z.eqb_spec (c + 1) k) as [E|E].
  - assert (Dq : ((L + 1) / k)%Z = (q + 1)%Z) by (symmetry; apply (Z.div_unique _ _ _ 0); lia).
    assert (Dm : ((L + 1) mod k)%Z = 0%Z) by (symmetry; apply (Z.mod_unique _ _ (q + 1)); lia).
    unfold acc_inv. rewrite HL1, Dq, Dm. cbn [fst snd va_count va_dvec]. split; [reflexivity|]. split.
    + split; [now rewrite !lenZ_map|]. intros e He. rewrite !nthZ_map. rewrite (H3 e He). cbn [option_map]. now rewrite zsum_nil by lia.
    + split; [rewrite HL1, lenZ_app, Hlen, Dq; reflexivity|]. intros j rec Hj. rewrite nthZ_snoc_if, Hlen in Hj.
      destruct (Z.eqb_spec j q) as [->|]; [|now apply Hrec']. injection Hj as <-. cbn [write_vec pr_count pr_time pr_data].
      replace (c + 1 =? 0)%Z with false by lia. rewrite E. split; [reflexivity|]. split; [exists s; split; [|reflexivity]|split; [now rewrite lenZ_map|]].
      * rewrite nthZ_snoc_if. destruct (Z.eqb_spec (q * k + k - 1) (lenZ ss)) as [|X]; [reflexivity|fold L in X; lia].
      * intros e He. rewrite nthZ_map, (H3 e He). cbn [option_map]. f_equal. rewrite E. unfold Rdiv. ring.
  - assert (Dq : ((L + 1) / k)%Z = q) by (symmetry; apply (Z.div_unique _ _ _ (c + 1)); lia).
    assert (Dm : ((L + 1) mod k)%Z = (c + 1)%Z) by (symmetry; apply (Z.mod_unique _ _ q); lia).
    unfold acc_inv. rewrite HL1, Dq, Dm. cbn [fst snd va_count va_dvec]. split; [reflexivity|]. split; [split; [exact H2|exact H3]|].
    split; [rewrite HL1, Dq, app_nil_r; exact Hlen|]. rewrite app_nil_r. exact Hrec'.
Qed.

Lemma records_averaged n_sum N ss : n_sum <> 0%Z -> (forall s, In s ss -> lenZ (snd s) = N) ->
  averaged (Z.abs n_sum) N ss (snd (fold_left (vstep n_sum) ss (vacc0, []))).
Proof.
  intros Hn HN. enough (acc_inv (Z.abs n_sum) N ss (fold_left (vstep n_sum) ss (vacc0, []))) by apply H.
  induction ss as [|s ss IH] using rev_ind.
  - cbn [fold_left]. unfold acc_inv. cbn [fst snd vacc0 va_count va_dvec]. change (lenZ (@nil sample)) with 0%Z. rewrite Z.mod_0_l by lia.
    split; [reflexivity|]. split; [reflexivity|]. split; [|intros j rec Hj; apply nthZ_Some_range in Hj; unfold lenZ in Hj; cbn in Hj; lia].
    symmetry. apply Z.div_0_l. lia.
  - rewrite fold_left_app. cbn [fold_left]. apply acc_step; auto.
    + apply HN. apply in_or_app. right. now left.
    + apply IH. intros; apply HN. apply in_or_app. now left.
Qed.
