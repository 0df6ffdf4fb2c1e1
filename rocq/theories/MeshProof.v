(** Mesh-level consequences of the per-axis lemmas. *)
From Coq Require Import String Permutation.
From Coq Require Import ZifyBool.
From Verif Require Import Prelude RSum TypesModel GridModel GridSpec GridProof.
Local Open Scope R_scope.

Lemma nonempty_len {A} (l : list A) : l <> [] -> (0 < lenZ l)%Z.
Proof. destruct l; [congruence|]. intros _. rewrite lenZ_cons. pose proof (lenZ_nonneg l). lia. Qed.

Lemma mesh_fd_ok dim mn mx per w f d :
  grid_ok dim mn mx w -> (0 <= f < 5)%Z -> (0 <= d < 3)%Z ->
  exists fd, mesh_fd dim mn mx per w f d = Ok fd.
Proof.
  intros [Hd Hg] Hf Hdd. unfold mesh_fd.
  destruct (Z.ltb_spec d dim) as [H1|H1]; [|eauto].
  destruct (Z.eqb_spec f 3); [eauto|]. destruct (Z.eqb_spec f 4); [eauto|].
  destruct (Z.ltb_spec f dim); [|eauto].
  destruct (Hg d ltac:(lia)) as (Hne & Hp & Hm). apply nonempty_len in Hne.
  destruct (Z.eqb_spec f d).
  - destruct (vel_own_spec (per f d) (mn d) (mx d) (w d) Hne Hm) as (fd & E & _). eauto.
  - destruct (vel_other_spec (per f d) (mn d) (mx d) (w d) Hne Hm) as (fd & E & _). eauto.
Qed.

Lemma createMesh_total dim mn mx per w :
  grid_ok dim mn mx w -> exists m, createMeshArrays dim mn mx per w = Ok m.
Proof.
  intros Hg. unfold createMeshArrays.
  match goal with |- context [forallb ?f ?l] => assert (E : forallb f l = true) end.
  { apply forallb_forall. intros r Hr. apply in_map_iff in Hr. destruct Hr as ([f d] & <- & Hin).
    apply in_prod_iff in Hin. destruct Hin as [H1 H2]. apply zrange_In in H1, H2. simpl.
    destruct (mesh_fd_ok dim mn mx per w f d Hg ltac:(lia) ltac:(lia)) as [fd ->]. reflexivity. }
  rewrite E. eauto.
Qed.

Lemma createMesh_fd dim mn mx per w m f d :
  createMeshArrays dim mn mx per w = Ok m -> m_fd m f d = ok_or fdir_default (mesh_fd dim mn mx per w f d).
Proof. unfold createMeshArrays. destruct (forallb _ _); [|discriminate]. intros H. injection H as <-. reflexivity. Qed.

Lemma createMesh_misc dim mn mx per w m :
  createMeshArrays dim mn mx per w = Ok m ->
  m_dim m = dim /\ m_min m = mn /\ m_max m = mx /\ m_periodic m = per.
Proof. unfold createMeshArrays. destruct (forallb _ _); [|discriminate]. intros H. injection H as <-. auto. Qed.

Section Mesh.
Variables (dim : Z) (mn mx : Z -> R) (per : Z -> Z -> bool) (w : Z -> list R) (m : mesh).
Hypothesis Hg : grid_ok dim mn mx w.
Hypothesis Hm : createMeshArrays dim mn mx per w = Ok m.

Lemma axis_facts d : (0 <= d < dim)%Z ->
  (0 < lenZ (w d))%Z /\ positive (w d) /\ mx d = mn d + total (w d).
Proof. intros H. destruct Hg as [_ G]. destruct (G d H) as (a & b & c). auto using nonempty_len. Qed.

Lemma mesh_vertex d : (0 <= d < dim)%Z ->
  m_n m 4 d = (lenZ (w d) + 1)%Z /\
  (forall k, (0 <= k <= lenZ (w d))%Z -> m_coord m 4 d k = Ok (vtx (mn d) (w d) k)) /\
  (forall k, (k < 0 \/ lenZ (w d) < k)%Z -> m_coord m 4 d k = UB).
Proof.
  intros H. unfold m_n, m_coord. rewrite (createMesh_fd _ _ _ _ _ _ 4 d Hm).
  unfold mesh_fd. destruct (Z.ltb_spec d dim); [|lia]. cbn [Z.eqb Pos.eqb ok_or].
  unfold fdir_vertex, rdA. cbn [fd_n fd_coord a_data a_off]. split; [reflexivity|]. split.
  - intros k Hk. apply rd_Ok. replace (k + 0)%Z with k by lia. now apply vertex_coord_nth.
  - intros k Hk. unfold rd. replace (nthZ _ _) with (@None R); auto. symmetry. apply nthZ_None.
    rewrite vertex_coord_len. lia.
Qed.

Lemma mesh_pressure d : (0 <= d < dim)%Z ->
  m_n m 3 d = lenZ (w d) /\
  (forall k, (0 <= k < lenZ (w d))%Z ->
     m_coord m 3 d k = Ok (ctr (mn d) (w d) k) /\
     m_dL m 3 d k = Ok (vtx (mn d) (w d) (k + 1) - vtx (mn d) (w d) k)) /\
  (forall k, (k < 0 \/ lenZ (w d) <= k)%Z -> m_coord m 3 d k = UB /\ m_dL m 3 d k = UB).
Proof.
  intros H. unfold m_n, m_coord, m_dL. rewrite (createMesh_fd _ _ _ _ _ _ 3 d Hm).
  unfold mesh_fd. destruct (Z.ltb_spec d dim); [|lia]. cbn [Z.eqb Pos.eqb ok_or].
  unfold fdir_pressure, rdA. cbn [fd_n fd_coord fd_dL a_data a_off]. split; [reflexivity|]. split.
  - intros k Hk. replace (k + 0)%Z with k by lia. split; apply rd_Ok.
    + now apply pressure_coord_nth.
    + rewrite wd_nthZ by lia. f_equal. rewrite vtx_S by lia. lra.
  - intros k Hk. unfold rd. split; (replace (nthZ _ _) with (@None R); auto; symmetry; apply nthZ_None).
    + rewrite pressure_coord_len. lia.
    + lia.
Qed.

Lemma mesh_velocity_fd f d : (0 <= f < dim)%Z -> (0 <= d < dim)%Z ->
  m_fd m f d = ok_or fdir_default (fdir_velocity (f =? d)%Z (per f d) (mn d) (mx d) (w d)).
Proof.
  intros Hf H. rewrite (createMesh_fd _ _ _ _ _ _ f d Hm). unfold mesh_fd.
  destruct Hg as [Hdim _].
  destruct (Z.ltb_spec d dim); [|lia]. destruct (Z.eqb_spec f 3); [lia|]. destruct (Z.eqb_spec f 4); [lia|].
  destruct (Z.ltb_spec f dim); [|lia]. reflexivity.
Qed.

(** Closed forms of coordinates and widths of a velocity component. *)
Definition vc (f d i : Z) : R :=
  if (f =? d)%Z then own_c (per f d) (mn d) (w d) i else oth_c (per f d) (mn d) (w d) i.
Definition vw (f d i : Z) : R :=
  if (f =? d)%Z then own_w (per f d) (w d) i else oth_w (per f d) (w d) i.
Definition vn (f d : Z) : Z :=
  if (f =? d)%Z then own_n (per f d) (lenZ (w d)) else lenZ (w d).

Lemma mesh_velocity f d : (0 <= f < dim)%Z -> (0 <= d < dim)%Z ->
  m_n m f d = vn f d /\
  (forall i, (-1 <= i <= vn f d)%Z -> m_coord m f d i = Ok (vc f d i) /\ m_dL m f d i = Ok (vw f d i)) /\
  (forall i, (i < -1 \/ vn f d < i)%Z -> m_coord m f d i = UB /\ m_dL m f d i = UB).
Proof.
  intros Hf H. unfold m_n, m_coord, m_dL. rewrite mesh_velocity_fd by auto.
  destruct (axis_facts d H) as (Hne & Hp & Hmx). unfold vn, vc, vw.
  destruct (Z.eqb_spec f d) as [E|E].
  - destruct (vel_own_spec (per f d) (mn d) (mx d) (w d) Hne Hmx) as (fd & -> & A & B & C).
    cbn [ok_or]. auto.
  - destruct (vel_other_spec (per f d) (mn d) (mx d) (w d) Hne Hmx) as (fd & -> & A & B & C).
    cbn [ok_or]. auto.
Qed.

Lemma vc_step f d i : (0 <= f < dim)%Z -> (0 <= d < dim)%Z -> (-1 <= i < vn f d)%Z ->
  vc f d i < vc f d (i + 1).
Proof.
  intros Hf H Hi. destruct (axis_facts d H) as (Hne & Hp & Hmx). unfold vn, vc in *.
  set (N := lenZ (w d)) in *.
  pose proof (positive_wd (w d) 0 Hp ltac:(fold N; lia)) as P0.
  pose proof (positive_wd (w d) (N - 1) Hp ltac:(fold N; lia)) as PN.
  pose proof (vtx_end (mn d) (w d)) as VE. fold N in VE.
  destruct (Z.eqb_spec f d) as [E|E].
  - unfold own_c, own_n in *. fold N.
    destruct (Z.leb_spec i (N - 1)); destruct (Z.leb_spec (i + 1) (N - 1)).
    + apply vtx_lt; auto; fold N; lia.
    + assert (i = N - 1)%Z by lia. subst i. replace (N - 1 + 1)%Z with N by lia. rewrite VE. lra.
    + lia.
    + destruct (per f d); lia.
  - unfold oth_c. fold N.
    assert (C0 : ctr (mn d) (w d) 0 = mn d + wd (w d) 0 / 2).
    { unfold ctr. rewrite vtx_S by (fold N; lia). rewrite vtx_0. lra. }
    assert (CN : ctr (mn d) (w d) (N - 1) = mn d + total (w d) - wd (w d) (N - 1) / 2).
    { unfold ctr. replace (N - 1 + 1)%Z with N by lia. rewrite VE.
      pose proof (vtx_S (mn d) (w d) (N - 1) ltac:(fold N; lia)) as G.
      replace (N - 1 + 1)%Z with N in G by lia. rewrite VE in G. lra. }
    destruct (Z.eqb_spec i (-1)) as [->|H1].
    + replace (-1 + 1)%Z with 0%Z by lia. destruct (Z.eqb_spec 0 (-1)); [lia|].
      destruct (Z.eqb_spec 0 N); [lia|]. rewrite C0. destruct (per f d); lra.
    + destruct (Z.eqb_spec (i + 1) (-1)); [lia|]. destruct (Z.eqb_spec i N); [lia|].
      destruct (Z.eqb_spec (i + 1) N) as [E2|E2].
      * replace i with (N - 1)%Z by lia. rewrite CN. destruct (per f d); lra.
      * unfold ctr. assert (vtx (mn d) (w d) i < vtx (mn d) (w d) (i + 1)) by (apply vtx_lt; auto; fold N; lia).
        assert (vtx (mn d) (w d) (i + 1) < vtx (mn d) (w d) (i + 1 + 1)) by (apply vtx_lt; auto; fold N; lia). lra.
Qed.

Lemma vc_lt f d i j : (0 <= f < dim)%Z -> (0 <= d < dim)%Z -> (-1 <= i < j)%Z -> (j <= vn f d)%Z ->
  vc f d i < vc f d j.
Proof.
  intros Hf H Hi Hj. revert Hj. pattern j. apply (zrange_ind_up _ (i + 1)); [| |lia].
  - intros. apply vc_step; auto; lia.
  - intros b Hb IH Hb2. pose proof (vc_step f d b Hf H ltac:(lia)).
    assert (vc f d i < vc f d b) by (apply IH; lia). lra.
Qed.

Lemma vw_pos f d i : (0 <= f < dim)%Z -> (0 <= d < dim)%Z -> (-1 <= i <= vn f d)%Z -> 0 < vw f d i.
Proof.
  intros Hf H Hi. destruct (axis_facts d H) as (Hne & Hp & Hmx). unfold vn, vw in *.
  set (N := lenZ (w d)) in *.
  assert (P : forall k, (0 <= k < N)%Z -> 0 < wd (w d) k) by (intros; apply positive_wd; auto).
  pose proof (P 0%Z ltac:(lia)). pose proof (P (N - 1)%Z ltac:(lia)).
  destruct (Z.eqb_spec f d) as [E|E].
  - unfold own_w, own_n in *. fold N. destruct (per f d).
    + destruct (Z.eqb_spec i (-1)); simpl orb; [lra|]. destruct (Z.eqb_spec i (N - 1)); [lra|].
      destruct (Z.eqb_spec i N).
      * destruct (Z.eqb_spec N 1); [lra|]. pose proof (P 1%Z ltac:(lia)). lra.
      * pose proof (P i ltac:(lia)). pose proof (P (i + 1)%Z ltac:(lia)). lra.
    + destruct (Z.eqb_spec i (-1)); [lra|]. destruct (Z.eqb_spec i (N - 1)); [lra|].
      pose proof (P i ltac:(lia)). pose proof (P (i + 1)%Z ltac:(lia)). lra.
  - unfold oth_w. fold N. destruct (Z.eqb_spec i (-1)); [destruct (per f d); lra|].
    destruct (Z.eqb_spec i N); [destruct (per f d); lra|]. apply P. lia.
Qed.
End Mesh.

(** * Whole-mesh parsing *)

Lemma decode_dir_range s : (0 <= decode_dir s < 3)%Z.
Proof.
  unfold decode_dir, map_get, str2dir_tab, dirX, dirY, dirZ. simpl.
  repeat match goal with |- context [if ?b then _ else _] => destruct b end; lia.
Qed.

Definition pm_step := (fun g ax =>
           do (dir, bgAx, edAx, nAx, dLAx) <- parseOneAxis ax;
           do mn <- wr (g_min g) dir bgAx;
           do mx <- wr (g_max g) dir edAx;
           do nn <- wr (g_n g) dir nAx;
           do dl <- wr (g_dL g) dir dLAx;
           Ok (mkGrid mn mx nn dl)).

Lemma wr_ok {A} (l : list A) i x : (0 <= i < lenZ l)%Z ->
  exists l', wr l i x = Ok l' /\ lenZ l' = lenZ l /\ nthZ l' i = Some x /\
    (forall j, j <> i -> nthZ l' j = nthZ l j).
Proof.
  intros H. unfold wr. destruct (Z.leb_spec 0 i); [|lia]. destruct (Z.ltb_spec i (lenZ l)); [|lia].
  simpl. eexists; split; [reflexivity|]. split; [unfold lenZ; now rewrite upd_nat_length|]. split.
  - unfold nthZ. destruct (Z.ltb_spec i 0); [lia|]. apply nth_error_upd_nat_same. unfold lenZ in *. lia.
  - intros j Hj. unfold nthZ. destruct (Z.ltb_spec j 0); [reflexivity|]. apply nth_error_upd_nat_other. lia.
Qed.

Lemma wr_comm {A} (l : list A) i j x y l1 l2 :
  i <> j -> wr l i x = Ok l1 -> wr l j y = Ok l2 ->
  exists l', wr l1 j y = Ok l' /\ wr l2 i x = Ok l'.
Proof.
  intros Hne H1 H2. unfold wr in *.
  destruct (Z.leb_spec 0 i); simpl in H1; [|discriminate]. destruct (Z.ltb_spec i (lenZ l)); [|discriminate].
  destruct (Z.leb_spec 0 j); simpl in H2; [|discriminate]. destruct (Z.ltb_spec j (lenZ l)); [|discriminate].
  injection H1 as <-. injection H2 as <-. unfold lenZ. rewrite !upd_nat_length.
  fold (lenZ l). destruct (Z.ltb_spec j (lenZ l)); [|lia]. destruct (Z.ltb_spec i (lenZ l)); [|lia].
  simpl. eexists; split; [reflexivity|]. f_equal. clear - Hne H H3.
  assert (Hn : Z.to_nat i <> Z.to_nat j) by lia. revert Hn. generalize (Z.to_nat i) (Z.to_nat j).
  induction l as [|h t IH]; intros [|a] [|b] Hn; simpl; try reflexivity; try lia.
  f_equal. apply IH. lia.
Qed.

Lemma pm_step_ok g ax : grid3 g -> axis_ok ax ->
  exists g', pm_step g ax = Ok g' /\ grid3 g' /\ holds_axis g' ax /\
    (forall d, d <> decode_dir (ax_dir ax) -> same_at g' g d).
Proof.
  intros (L1 & L2 & L3 & L4) (Hne & Hok).
  destruct (parse_subs_ok _ _ Hok) as (dL & pcs & E & L & P & _ & _ & T).
  unfold pm_step, parseOneAxis. rewrite E. cbn [bind].
  pose proof (decode_dir_range (ax_dir ax)) as Hd. set (d := decode_dir (ax_dir ax)) in *.
  destruct (wr_ok (g_min g) d (ax_start ax) ltac:(lia)) as (a & Ea & La & Na & Oa).
  destruct (wr_ok (g_max g) d (last_end (ax_start ax) (ax_subs ax)) ltac:(lia)) as (b & Eb & Lb & Nb & Ob).
  destruct (wr_ok (g_n g) d (sumZ (map sd_cells (ax_subs ax))) ltac:(lia)) as (c & Ec & Lc & Nc & Oc).
  destruct (wr_ok (g_dL g) d dL ltac:(lia)) as (e & Ee & Le & Ne & Oe).
  rewrite Ea. cbn [bind]. rewrite Eb. cbn [bind]. rewrite Ec. cbn [bind]. rewrite Ee. cbn [bind].
  eexists; split; [reflexivity|]. split; [|split].
  - unfold grid3. cbn [g_min g_max g_n g_dL]. repeat split; lia.
  - exists dL. cbn [g_min g_max g_n g_dL]. fold d. repeat split; auto.
  - intros d' Hd'. unfold same_at. cbn [g_min g_max g_n g_dL]. auto.
Qed.

Lemma holds_axis_same g g' ax : same_at g' g (decode_dir (ax_dir ax)) -> holds_axis g ax -> holds_axis g' ax.
Proof.
  intros (A & B & C & D) (dL & E & H). exists dL. split; [exact E|]. cbn zeta in *.
  rewrite A, B, C, D. exact H.
Qed.

Lemma same_at_trans g1 g2 g3 d : same_at g1 g2 d -> same_at g2 g3 d -> same_at g1 g3 d.
Proof. unfold same_at. intuition congruence. Qed.

Lemma pm_fold_ok node : forall g, grid3 g -> Forall axis_ok node ->
  NoDup (map (fun ax => decode_dir (ax_dir ax)) node) ->
  exists g', foldM pm_step node g = Ok g' /\ grid3 g' /\
    (forall ax, In ax node -> holds_axis g' ax) /\
    (forall d, ~ In d (map (fun ax => decode_dir (ax_dir ax)) node) -> same_at g' g d).
Proof.
  induction node as [|ax t IH]; intros g Hg Hok Hnd.
  - simpl. exists g. split; [reflexivity|]. split; [auto|]. split; [easy|]. unfold same_at; auto.
  - inversion Hok as [|? ? Ha Ht]; subst. simpl in Hnd. inversion Hnd as [|? ? Hni Hnd']; subst.
    destruct (pm_step_ok g ax Hg Ha) as (g1 & E1 & H1 & A1 & S1).
    destruct (IH g1 H1 Ht Hnd') as (g2 & E2 & H2 & A2 & S2).
    exists g2. cbn [foldM]. rewrite E1. cbn [bind]. split; [exact E2|]. split; [exact H2|]. split.
    + intros ax' [<-|Hin]; auto. eapply holds_axis_same; [apply S2; exact Hni|exact A1].
    + intros d Hd. simpl in Hd. eapply same_at_trans; [apply S2; tauto|apply S1; intuition].
Qed.

Lemma parse_mesh_ok node :
  Forall axis_ok node -> NoDup (map (fun ax => decode_dir (ax_dir ax)) node) ->
  exists g, parseMesh node grid0 = Ok (lenZ node, g) /\ grid3 g /\
    (forall ax, In ax node -> holds_axis g ax) /\
    (forall d, ~ In d (map (fun ax => decode_dir (ax_dir ax)) node) -> same_at g grid0 d).
Proof.
  intros Hok Hnd. destruct (pm_fold_ok node grid0) as (g & E & H3 & A & S); auto.
  { unfold grid3; cbn; auto. }
  exists g. unfold parseMesh. change (foldM _ node grid0) with (foldM pm_step node grid0). rewrite E.
  cbn [bind]. auto.
Qed.

Lemma same_all_eq g g' : grid3 g -> grid3 g' -> (forall d, (0 <= d < 3)%Z -> same_at g g' d) -> g = g'.
Proof.
  destruct g as [p1 p2 p3 p4], g' as [q1 q2 q3 q4]. unfold grid3, same_at. cbn [g_min g_max g_n g_dL].
  intros (A & B & C & D) (A' & B' & C' & D') H.
  f_equal; apply nthZ_ext; try congruence; intros i Hi; destruct (H i ltac:(lia)) as (? & ? & ? & ?); auto.
Qed.

Lemma parse_mesh_perm node node' :
  Forall axis_ok node -> NoDup (map (fun ax => decode_dir (ax_dir ax)) node) ->
  Permutation node node' -> parseMesh node' grid0 = parseMesh node grid0.
Proof.
  intros Hok Hnd Hp.
  assert (Hok' : Forall axis_ok node').
  { rewrite Forall_forall in *. intros x Hx. apply Hok. eapply Permutation_in; [symmetry; exact Hp|auto]. }
  assert (Hnd' : NoDup (map (fun ax => decode_dir (ax_dir ax)) node')).
  { eapply Permutation_NoDup; [|exact Hnd]. now apply Permutation_map. }
  destruct (parse_mesh_ok node Hok Hnd) as (g & E & H3 & A & S).
  destruct (parse_mesh_ok node' Hok' Hnd') as (g' & E' & H3' & A' & S').
  rewrite E, E'. unfold lenZ. rewrite (Permutation_length Hp). do 2 f_equal.
  apply same_all_eq; auto. intros d Hd.
  destruct (in_dec Z.eq_dec d (map (fun ax => decode_dir (ax_dir ax)) node)) as [Hi|Hi].
  - apply in_map_iff in Hi. destruct Hi as (ax & <- & Hin).
    destruct (A ax Hin) as (dL & P & B1 & B2 & B3 & B4 & _).
    destruct (A' ax ltac:(eapply Permutation_in; eauto)) as (dL' & P' & C1 & C2 & C3 & C4 & _).
    assert (dL = dL') by congruence. subst. unfold same_at. rewrite B1, B2, B3, B4, C1, C2, C3, C4. auto.
  - assert (Hi' : ~ In d (map (fun ax => decode_dir (ax_dir ax)) node')).
    { intros H. apply Hi. eapply Permutation_in; [symmetry; apply Permutation_map; exact Hp|exact H]. }
    specialize (S d Hi). specialize (S' d Hi'). unfold same_at in *. intuition congruence.
Qed.

Lemma subs_cells_pos subs : forall bg, subs_ok bg subs -> subs <> [] -> (0 < sumZ (map sd_cells subs))%Z.
Proof.
  induction subs as [|s t IH]; intros bg H Hne; [congruence|]. simpl in H. destruct H as (_ & Hc & _ & Ht).
  simpl. destruct t as [|s' t']; [simpl; lia|]. specialize (IH _ Ht ltac:(discriminate)). lia.
Qed.

Lemma parsed_grid_ok node :
  Forall axis_ok node ->
  Permutation (map (fun ax => decode_dir (ax_dir ax)) node) (zrange 0 (lenZ node)) ->
  (lenZ node = 2 \/ lenZ node = 3)%Z ->
  exists g, parseMesh node grid0 = Ok (lenZ node, g) /\
    grid_ok (lenZ node) (gmin g) (gmax g) (gdL g).
Proof.
  intros Hok Hp Hl.
  destruct (parse_mesh_ok node Hok) as (g & E & H3 & A & _).
  { eapply Permutation_NoDup; [symmetry; exact Hp|]. apply zrange_NoDup. }
  exists g. split; [exact E|]. split; [exact Hl|]. intros d Hd.
  assert (Hi : In d (map (fun ax => decode_dir (ax_dir ax)) node)).
  { eapply Permutation_in; [symmetry; exact Hp|]. apply zrange_In. lia. }
  apply in_map_iff in Hi. destruct Hi as (ax & <- & Hin).
  destruct (A ax Hin) as (dL & P & B1 & B2 & B3 & B4 & B5 & B6 & B7).
  unfold gmin, gmax, gdL. rewrite B1, B2, B4.
  rewrite Forall_forall in Hok. destruct (Hok ax Hin) as [Hne Hs].
  pose proof (subs_cells_pos _ _ Hs Hne). split; [|split; [auto|lra]].
  intros ->. unfold lenZ in B5. simpl in B5. lia.
Qed.

Section MeshStatements.
Variables (dim : Z) (mn mx : Z -> R) (per : Z -> Z -> bool) (w : Z -> list R) (m : mesh).
Hypothesis Hg : grid_ok dim mn mx w.
Hypothesis Hm : createMeshArrays dim mn mx per w = Ok m.

Lemma vertex_statement d : (0 <= d < dim)%Z ->
  m_n m 4 d = (lenZ (w d) + 1)%Z /\
  m_coord m 4 d 0 = Ok (mn d) /\ m_coord m 4 d (lenZ (w d)) = Ok (mx d) /\
  (forall k, (0 <= k <= lenZ (w d))%Z -> m_coord m 4 d k = Ok (vtx (mn d) (w d) k)) /\
  (forall i j x y, (i < j)%Z -> m_coord m 4 d i = Ok x -> m_coord m 4 d j = Ok y -> x < y).
Proof.
  intros H. destruct (mesh_vertex _ _ _ _ _ _ Hm d H) as (A & B & C).
  destruct (axis_facts _ _ _ _ Hg d H) as (Hne & Hp & Hmx).
  split; [exact A|]. split; [rewrite B by lia; now rewrite vtx_0|].
  split; [rewrite B by lia; now rewrite vtx_end, Hmx|]. split; [exact B|].
  intros i j x y Hij Ei Ej.
  assert (Hi : (0 <= i <= lenZ (w d))%Z) by (destruct (Z_lt_dec i 0); [rewrite C in Ei by lia; discriminate|];
    destruct (Z_lt_dec (lenZ (w d)) i); [rewrite C in Ei by lia; discriminate|lia]).
  assert (Hj : (0 <= j <= lenZ (w d))%Z) by (destruct (Z_lt_dec j 0); [rewrite C in Ej by lia; discriminate|];
    destruct (Z_lt_dec (lenZ (w d)) j); [rewrite C in Ej by lia; discriminate|lia]).
  rewrite B in Ei, Ej by lia. injection Ei as <-. injection Ej as <-. apply vtx_lt; auto; lia.
Qed.

Lemma increasing_statement f d i j x y : (0 <= f < dim)%Z -> (0 <= d < dim)%Z -> (i < j)%Z ->
  m_coord m f d i = Ok x -> m_coord m f d j = Ok y -> x < y.
Proof.
  intros Hf H Hij Ei Ej. destruct (mesh_velocity _ _ _ _ _ _ Hg Hm f d Hf H) as (A & B & C).
  set (n := vn per w f d) in *.
  assert (Hi : (-1 <= i <= n)%Z) by (destruct (Z_lt_dec i (-1)); [destruct (C i ltac:(lia)); congruence|];
    destruct (Z_lt_dec n i); [destruct (C i ltac:(lia)); congruence|lia]).
  assert (Hj : (-1 <= j <= n)%Z) by (destruct (Z_lt_dec j (-1)); [destruct (C j ltac:(lia)); congruence|];
    destruct (Z_lt_dec n j); [destruct (C j ltac:(lia)); congruence|lia]).
  destruct (B i Hi) as [Bi _]. destruct (B j Hj) as [Bj _].
  rewrite Bi in Ei. rewrite Bj in Ej. injection Ei as <-. injection Ej as <-.
  eapply vc_lt; eauto; fold n; lia.
Qed.

Lemma widths_positive_statement f d i : (0 <= f < dim)%Z -> (0 <= d < dim)%Z ->
  (-1 <= i <= m_n m f d)%Z ->
  (exists x, m_coord m f d i = Ok x) /\ exists x, m_dL m f d i = Ok x /\ 0 < x.
Proof.
  intros Hf H Hi. destruct (mesh_velocity _ _ _ _ _ _ Hg Hm f d Hf H) as (A & B & C).
  rewrite A in Hi. destruct (B i Hi) as [B1 B2]. split; [eauto|]. exists (vw per w f d i). split; auto.
  eapply vw_pos; eauto.
Qed.

Lemma reads_outside_statement f d i : (0 <= f < dim)%Z -> (0 <= d < dim)%Z ->
  (i < -1 \/ m_n m f d < i)%Z -> m_coord m f d i = UB /\ m_dL m f d i = UB.
Proof.
  intros Hf H Hi. destruct (mesh_velocity _ _ _ _ _ _ Hg Hm f d Hf H) as (A & B & C).
  rewrite A in Hi. auto.
Qed.

Lemma own_statement f : (0 <= f < dim)%Z -> per f f = false ->
  m_n m f f = (lenZ (w f) - 1)%Z /\
  (forall i, (-1 <= i <= lenZ (w f) - 1)%Z -> m_coord m f f i = Ok (vtx (mn f) (w f) (i + 1))) /\
  (forall i, (0 <= i < lenZ (w f) - 1)%Z ->
     m_dL m f f i = Ok ((vtx (mn f) (w f) (i + 2) - vtx (mn f) (w f) i) / 2)) /\
  m_coord m f f (-1) = Ok (mn f) /\ m_coord m f f (m_n m f f) = Ok (mx f).
Proof.
  intros Hf Hper. destruct (mesh_velocity _ _ _ _ _ _ Hg Hm f f Hf Hf) as (A & B & C).
  destruct (axis_facts _ _ _ _ Hg f Hf) as (Hne & Hp & Hmx).
  unfold vn, vc, vw in *. rewrite Z.eqb_refl in *. rewrite Hper in *. unfold own_n in *.
  assert (Hc : forall i, (-1 <= i <= lenZ (w f) - 1)%Z -> m_coord m f f i = Ok (vtx (mn f) (w f) (i + 1))).
  { intros i Hi. destruct (B i Hi) as [E _]. rewrite E. unfold own_c.
    destruct (Z.leb_spec i (lenZ (w f) - 1)); [reflexivity|lia]. }
  split; [exact A|]. split; [exact Hc|]. split; [|split].
  - intros i Hi. destruct (B i ltac:(lia)) as [_ E]. rewrite E. unfold own_w.
    destruct (Z.eqb_spec i (-1)); [lia|]. destruct (Z.eqb_spec i (lenZ (w f) - 1)); [lia|].
    f_equal. replace (i + 2)%Z with (i + 1 + 1)%Z by lia. rewrite vtx_S by lia. rewrite (vtx_S _ _ i) by lia. lra.
  - rewrite Hc by lia. replace (-1 + 1)%Z with 0%Z by lia. now rewrite vtx_0.
  - rewrite A, Hc by lia. replace (lenZ (w f) - 1 + 1)%Z with (lenZ (w f)) by lia. now rewrite vtx_end, Hmx.
Qed.

Lemma other_statement f d : (0 <= f < dim)%Z -> (0 <= d < dim)%Z -> f <> d -> per f d = false ->
  m_n m f d = lenZ (w d) /\
  (forall i, (0 <= i < lenZ (w d))%Z ->
     m_coord m f d i = m_coord m 3 d i /\ m_dL m f d i = m_dL m 3 d i) /\
  (exists x, m_coord m f d 0 = Ok x /\ m_coord m f d (-1) = Ok (2 * mn d - x)) /\
  (exists x, m_coord m f d (lenZ (w d) - 1) = Ok x /\ m_coord m f d (lenZ (w d)) = Ok (2 * mx d - x)) /\
  m_dL m f d (-1) = m_dL m f d 0 /\ m_dL m f d (lenZ (w d)) = m_dL m f d (lenZ (w d) - 1).
Proof.
  intros Hf H Hne Hper. destruct (mesh_velocity _ _ _ _ _ _ Hg Hm f d Hf H) as (A & B & C).
  destruct (mesh_pressure _ _ _ _ _ _ Hm d H) as (PA & PB & PC).
  destruct (axis_facts _ _ _ _ Hg d H) as (HN & Hp & Hmx).
  unfold vn, vc, vw in *. destruct (Z.eqb_spec f d); [congruence|]. rewrite Hper in *.
  set (N := lenZ (w d)) in *.
  pose proof (vtx_S (mn d) (w d) 0 ltac:(fold N; lia)) as V0. rewrite vtx_0 in V0.
  pose proof (vtx_S (mn d) (w d) (N - 1) ltac:(fold N; lia)) as VN.
  replace (N - 1 + 1)%Z with (lenZ (w d)) in VN by (fold N; lia). rewrite vtx_end in VN.
  split; [exact A|]. split; [|split; [|split; [|split]]].
  - intros i Hi. destruct (B i ltac:(lia)) as [E1 E2]. destruct (PB i Hi) as [F1 F2].
    rewrite E1, E2, F1, F2. unfold oth_c, oth_w. fold N.
    destruct (Z.eqb_spec i (-1)); [lia|]. destruct (Z.eqb_spec i N); [lia|].
    split; [reflexivity|]. rewrite vtx_S by (fold N; lia). f_equal. lra.
  - destruct (B 0%Z ltac:(lia)) as [-> _]. destruct (B (-1)%Z ltac:(lia)) as [-> _].
    eexists; split; [reflexivity|]. unfold oth_c. fold N.
    destruct (Z.eqb_spec 0 (-1)); [lia|]. destruct (Z.eqb_spec 0 N); [lia|].
    simpl. unfold ctr. rewrite V0, vtx_0. f_equal. lra.
  - destruct (B (N - 1)%Z ltac:(lia)) as [-> _]. destruct (B N ltac:(lia)) as [-> _].
    eexists; split; [reflexivity|]. unfold oth_c. fold N.
    destruct (Z.eqb_spec (N - 1) (-1)); [lia|]. destruct (Z.eqb_spec (N - 1) N); [lia|].
    destruct (Z.eqb_spec N (-1)); [lia|]. rewrite Z.eqb_refl.
    unfold ctr. replace (N - 1 + 1)%Z with (lenZ (w d)) by (fold N; lia). rewrite vtx_end. f_equal. lra.
  - destruct (B 0%Z ltac:(lia)) as [_ ->]. destruct (B (-1)%Z ltac:(lia)) as [_ ->].
    unfold oth_w. fold N. destruct (Z.eqb_spec 0 (-1)); [lia|]. destruct (Z.eqb_spec 0 N); [lia|]. reflexivity.
  - destruct (B (N - 1)%Z ltac:(lia)) as [_ ->]. destruct (B N ltac:(lia)) as [_ ->].
    unfold oth_w. fold N. destruct (Z.eqb_spec N (-1)); [lia|]. rewrite Z.eqb_refl.
    destruct (Z.eqb_spec (N - 1) (-1)); [lia|]. destruct (Z.eqb_spec (N - 1) N); [lia|]. reflexivity.
Qed.

Lemma periodic_statement f d : (0 <= f < dim)%Z -> (0 <= d < dim)%Z -> per f d = true ->
  let n := m_n m f d in
  n = lenZ (w d) /\
  (exists x, m_coord m f d (n - 1) = Ok x /\ m_coord m f d (-1) = Ok (x - (mx d - mn d))) /\
  (exists x, m_coord m f d 0 = Ok x /\ m_coord m f d n = Ok (x + (mx d - mn d))) /\
  m_dL m f d (-1) = m_dL m f d (n - 1) /\ m_dL m f d n = m_dL m f d 0.
Proof.
  intros Hf H Hper. destruct (mesh_velocity _ _ _ _ _ _ Hg Hm f d Hf H) as (A & B & C).
  destruct (axis_facts _ _ _ _ Hg d H) as (HN & Hp & Hmx).
  cbn zeta. rewrite A. unfold vn, vc, vw in *. rewrite Hper in *. unfold own_n in *.
  set (N := lenZ (w d)) in *.
  pose proof (vtx_S (mn d) (w d) 0 ltac:(fold N; lia)) as V0. rewrite vtx_0 in V0.
  pose proof (vtx_S (mn d) (w d) (N - 1) ltac:(fold N; lia)) as VN.
  replace (N - 1 + 1)%Z with (lenZ (w d)) in VN by (fold N; lia). rewrite vtx_end in VN.
  destruct (Z.eqb_spec f d) as [E|E].
  - destruct (B (N - 1)%Z ltac:(lia)) as [E1 W1]. destruct (B (-1)%Z ltac:(lia)) as [E2 W2].
    destruct (B 0%Z ltac:(lia)) as [E3 W3]. destruct (B N ltac:(lia)) as [E4 W4].
    rewrite E1, E2, E3, E4, W1, W2, W3, W4. unfold own_c, own_w. fold N.
    split; [reflexivity|]. split; [|split; [|split]].
    + eexists; split; [reflexivity|]. destruct (Z.leb_spec (-1) (N - 1)); [|lia].
      destruct (Z.leb_spec (N - 1) (N - 1)); [|lia].
      replace (N - 1 + 1)%Z with (lenZ (w d)) by (fold N; lia). rewrite vtx_end.
      replace (-1 + 1)%Z with 0%Z by lia. rewrite vtx_0. f_equal. lra.
    + eexists; split; [reflexivity|]. destruct (Z.leb_spec N (N - 1)); [lia|].
      destruct (Z.leb_spec 0 (N - 1)); [|lia]. rewrite V0. f_equal. lra.
    + rewrite !Z.eqb_refl. rewrite orb_true_r. reflexivity.
    + destruct (Z.eqb_spec N (-1)); [lia|]. destruct (Z.eqb_spec N (N - 1)); [lia|]. rewrite Z.eqb_refl.
      destruct (Z.eqb_spec 0 (-1)); [lia|]. cbn [orb]. destruct (Z.eqb_spec 0 (N - 1)).
      * destruct (Z.eqb_spec N 1); [reflexivity|lia].
      * destruct (Z.eqb_spec N 1); [lia|]. destruct (Z.eqb_spec 0 N); [lia|]. reflexivity.
  - destruct (B (N - 1)%Z ltac:(lia)) as [E1 W1]. destruct (B (-1)%Z ltac:(lia)) as [E2 W2].
    destruct (B 0%Z ltac:(lia)) as [E3 W3]. destruct (B N ltac:(lia)) as [E4 W4].
    rewrite E1, E2, E3, E4, W1, W2, W3, W4. unfold oth_c, oth_w. fold N. rewrite !Z.eqb_refl.
    destruct (Z.eqb_spec N (-1)); [lia|]. destruct (Z.eqb_spec (N - 1) (-1)); [lia|].
    destruct (Z.eqb_spec (N - 1) N); [lia|]. destruct (Z.eqb_spec 0 N); [lia|].
    destruct (Z.eqb_spec 0 (-1)); [lia|].
    split; [reflexivity|]. split; [|split; [|split]]; try reflexivity.
    + eexists; split; [reflexivity|]. unfold ctr.
      replace (N - 1 + 1)%Z with (lenZ (w d)) by (fold N; lia). rewrite vtx_end. f_equal. lra.
    + eexists; split; [reflexivity|]. unfold ctr. rewrite V0, vtx_0. f_equal. lra.
Qed.

(** On a periodic own axis the interior points are the vertices 1..N. *)
Lemma periodic_own_statement f i : (0 <= f < dim)%Z -> per f f = true ->
  (-1 <= i <= lenZ (w f) - 1)%Z ->
  m_coord m f f i = Ok (vtx (mn f) (w f) (i + 1)) /\
  ((0 <= i < lenZ (w f) - 1)%Z ->
   m_dL m f f i = Ok ((vtx (mn f) (w f) (i + 2) - vtx (mn f) (w f) i) / 2)).
Proof.
  intros Hf Hper Hi. destruct (mesh_velocity _ _ _ _ _ _ Hg Hm f f Hf Hf) as (A & B & C).
  unfold vn, vc, vw in *. rewrite Z.eqb_refl in *. rewrite Hper in *. unfold own_n in *.
  destruct (B i ltac:(lia)) as [E1 E2]. rewrite E1, E2. unfold own_c, own_w. split.
  - destruct (Z.leb_spec i (lenZ (w f) - 1)); [reflexivity|lia].
  - intros Hi2. destruct (Z.eqb_spec i (-1)); [lia|]. destruct (Z.eqb_spec i (lenZ (w f) - 1)); [lia|].
    destruct (Z.eqb_spec i (lenZ (w f))); [lia|]. simpl orb. cbv iota.
    f_equal. replace (i + 2)%Z with (i + 1 + 1)%Z by lia. rewrite vtx_S by lia. rewrite (vtx_S _ _ i) by lia. lra.
Qed.

Lemma periodic_other_statement f d i : (0 <= f < dim)%Z -> (0 <= d < dim)%Z -> f <> d ->
  (0 <= i < lenZ (w d))%Z ->
  m_coord m f d i = m_coord m 3 d i /\ m_dL m f d i = m_dL m 3 d i.
Proof.
  intros Hf H Hne Hi. destruct (mesh_velocity _ _ _ _ _ _ Hg Hm f d Hf H) as (A & B & C).
  destruct (mesh_pressure _ _ _ _ _ _ Hm d H) as (PA & PB & PC).
  unfold vn, vc, vw in *. destruct (Z.eqb_spec f d); [congruence|].
  destruct (B i ltac:(lia)) as [-> ->]. destruct (PB i Hi) as [-> ->]. unfold oth_c, oth_w.
  destruct (Z.eqb_spec i (-1)); [lia|]. destruct (Z.eqb_spec i (lenZ (w d))); [lia|].
  rewrite vtx_S by lia. split; auto. f_equal. lra.
Qed.
End MeshStatements.
