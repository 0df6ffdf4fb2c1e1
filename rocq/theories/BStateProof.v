From Coq Require Import Permutation ZifyBool.
From Verif Require Import Prelude ZSum RSum TypesModel GridModel GridSpec GridProof MeshProof
  IndexModel IndexSpec IndexProof BoundaryModel BoundarySpec BoundaryProof OperatorModel OperatorSpec OperatorProof.
Local Open Scope R_scope.

(** * The boundary object as a pure function of the history *)
Definition bsb (m : mesh) (D : dec) (types : Z -> Z -> bctype) (values : Z -> Z -> R) (r f loc : Z) : sbd :=
  match types f loc with
  | PERIODIC => mkSB PERIODIC loc f (values f loc) (normal_of loc) false []
  | ty => mkSB ty loc f (values f loc) (normal_of loc) (checkBoundaryProc (m_n m f) D r f loc) (gl_points m D r f loc)
  end.
Definition sb_after (sb : sbd) (hist : list bop) : sbd :=
  with_points sb (map (fun kp => (fst kp, fold_left (pstep sb) hist (snd kp))) (sb_points sb)).
Definition pure_state m D types values r hist : list (list sbd) :=
  map (fun f => map (fun loc => sb_after (bsb m D types values r f loc) hist) (zrange 0 (m_dim m * 2))) (zrange 0 (m_dim m)).

Lemma bsb_points m D types values r f loc :
  sb_points (bsb m D types values r f loc) = match types f loc with PERIODIC => [] | _ => gl_points m D r f loc end.
Proof. unfold bsb. destruct (types f loc); reflexivity. Qed.

Lemma sb_after_app sb h1 h2 : sb_after (sb_after sb h1) h2 = sb_after sb (h1 ++ h2).
Proof.
  unfold sb_after. unfold with_points at 1 2. cbn [sb_type sb_loc sb_field sb_value sb_normal sb_on sb_points with_points].
  unfold with_points. f_equal. rewrite map_map. apply map_ext. intros [k p]. cbn [fst snd]. f_equal.
  rewrite fold_left_app. generalize (fold_left (pstep sb) h1 p). clear. intros p. revert p.
  induction h2 as [|o t IH]; intros p; [reflexivity|]. cbn [fold_left]. rewrite IH. reflexivity.
Qed.
Lemma sb_after_nil sb : sb_after sb [] = sb.
Proof.
  destruct sb as [a b c d e g h]. unfold sb_after, with_points. cbn. f_equal. rewrite <- (map_id h) at 2. apply map_ext. intros [? ?]; reflexivity.
Qed.

Lemma bsb_local m D types values r f loc hist : mfacts m D -> (0 <= f < m_dim m)%Z -> (0 <= loc < m_dim m * 2)%Z ->
  (0 <= r < nranks D)%Z -> tids_local m D r (sb_points (sb_after (bsb m D types values r f loc) hist)).
Proof.
  intros F Hf Hl Hr kp Hin. cbn [sb_after with_points sb_points] in Hin. apply in_map_iff in Hin.
  destruct Hin as ([s p] & <- & Hin). cbn [snd fst]. rewrite (geom_tid _ _ (psteps_geom _ _ _)).
  rewrite bsb_points in Hin. assert (Hp : In (s, p) (gl_points m D r f loc)) by (destruct (types f loc); auto; contradiction).
  apply (gl_tids_local m D r f loc F Hf Hl Hr (s, p) Hp).
Qed.

Lemma mapM_map {A B C} (g : A -> B) (f : B -> res C) l : mapM f (map g l) = mapM (fun a => f (g a)) l.
Proof. induction l as [|a t IH]; [reflexivity|]. cbn. rewrite IH. reflexivity. Qed.

Lemma pure_create m D types values r : mfacts m D -> (0 <= r < nranks D)%Z -> bc_fits m types ->
  createBoundary m D r types values = Ok (pure_state m D types values r []).
Proof.
  intros F Hr Hb. unfold createBoundary, pure_state. apply mapM_ok. intros f Hf. apply zrange_In in Hf.
  apply mapM_ok. intros loc Hl. apply zrange_In in Hl. rewrite sb_after_nil. unfold bsb.
  destruct (Hb f loc Hf Hl) as [Hne _].
  destruct (types f loc) eqn:E; [contradiction| | | |]; try reflexivity; (rewrite create_ok by (auto; unfold ghosted_type; tauto); reflexivity).
Qed.

Lemma pure_run m D types values r h1 h2 : mfacts m D -> (0 <= r < nranks D)%Z ->
  run_boundary m D r h2 (pure_state m D types values r h1) = Ok (pure_state m D types values r (h1 ++ h2)).
Proof.
  intros F Hr. unfold run_boundary. revert h1. induction h2 as [|o t IH]; intros h1; [rewrite app_nil_r; reflexivity|].
  cbn [foldM].
  assert (S : run_boundary_op m D r (pure_state m D types values r h1) o = Ok (pure_state m D types values r (h1 ++ [o]))).
  { unfold run_boundary_op, pure_state. rewrite mapM_map. apply mapM_ok. intros f Hf. apply zrange_In in Hf.
    rewrite mapM_map. apply mapM_ok. intros loc Hl. apply zrange_In in Hl.
    rewrite run_bop_ok by (now apply bsb_local). rewrite <- sb_after_app. reflexivity. }
  rewrite S. cbn [bind]. rewrite IH. rewrite <- app_assoc. reflexivity.
Qed.

Lemma after_pure m D types values hist B r : mfacts m D -> bc_fits m types -> boundary_after m D types values hist B ->
  (0 <= r < nranks D)%Z -> B r = pure_state m D types values r hist.
Proof.
  intros F Hb H Hr. destruct (H r Hr) as (b0 & E0 & E1). rewrite pure_create in E0 by auto. injection E0 as <-.
  rewrite pure_run in E1 by auto. cbn in E1. congruence.
Qed.
Lemma pure_after m D types values hist : mfacts m D -> bc_fits m types ->
  boundary_after m D types values hist (fun r => pure_state m D types values r hist).
Proof.
  intros F Hb r Hr. eexists. split; [now apply pure_create|]. rewrite pure_run by auto. reflexivity.
Qed.

(** * The boundary points of a rank *)
Definition bpts m D types values hist r : list (Z * (stencil * ginfo)) :=
  flat_map (fun f => flat_map (fun loc => map (fun kp => (f, kp)) (sb_points (sb_after (bsb m D types values r f loc) hist)))
                      (zrange 0 (m_dim m * 2))) (zrange 0 (m_dim m)).

Lemma rank_points_pure m D types values hist r :
  rank_points (pure_state m D types values r hist) (m_dim m) = Ok (bpts m D types values hist r).
Proof.
  unfold rank_points, pure_state.
  rewrite (mapM_ok _ (fun f => flat_map (fun loc => map (fun kp => (f, kp)) (sb_points (sb_after (bsb m D types values r f loc) hist)))
                      (zrange 0 (m_dim m * 2)))).
  - cbn [bind]. rewrite <- flat_map_concat_map. reflexivity.
  - intros f Hf. apply zrange_In in Hf. unfold rd. rewrite nthZ_map, nthZ_zrange by lia. cbn [option_map bind]. f_equal.
    replace (0 + f)%Z with f by lia.
    induction (zrange 0 (m_dim m * 2)) as [|loc t IH]; [reflexivity|]. cbn [map flat_map]. rewrite IH. f_equal.
    cbn [sb_after with_points sb_on sb_points]. rewrite bsb_points. unfold bsb, gl_points.
    destruct (types f loc); cbn [sb_on sb_points]; try reflexivity; destruct (checkBoundaryProc _ _ _ _ _); reflexivity.
Qed.

Lemma is_ghost_inj n l l' q : (0 <= l < 6)%Z -> (0 <= l' < 6)%Z -> (forall d, (0 <= d < 3)%Z -> 1 <= n d)%Z ->
  is_ghost n l q -> is_ghost n l' q -> l = l'.
Proof.
  intros Hl Hl' Hn [G I] [G' I'].
  assert (Hd : (0 <= loc_dir l < 3)%Z) by (pose proof (loc_dir_range 3 l ltac:(lia)); lia). assert (Hd' : (0 <= loc_dir l' < 3)%Z) by (pose proof (loc_dir_range 3 l' ltac:(lia)); lia).
  pose proof (Hn _ Hd) as N1. pose proof (Hn _ Hd') as N2.
  destruct (Z.eq_dec (loc_dir l) (loc_dir l')) as [E|E].
  - rewrite E in G. rewrite G' in G. unfold ghost_layer in G. rewrite E in G. unfold loc_dir in *.
    pose proof (Z.div_mod l 2 ltac:(lia)). pose proof (Z.div_mod l' 2 ltac:(lia)).
    pose proof (Z.mod_pos_bound l 2 ltac:(lia)). pose proof (Z.mod_pos_bound l' 2 ltac:(lia)).
    destruct (Z.eqb_spec (l mod 2) 0), (Z.eqb_spec (l' mod 2) 0); lia.
  - exfalso. rewrite interior_pc in I'. specialize (I' _ Hd). rewrite pc_setc in I' by auto.
    replace (loc_dir l =? loc_dir l')%Z with false in I' by lia. unfold ghost_layer in G. destruct (_ =? _)%Z; lia.
Qed.

Lemma bpts_In m D types values hist r f s info : mfacts m D -> (0 <= r < nranks D)%Z ->
  In (f, (s, info)) (bpts m D types values hist r) ->
  exists loc q p, (0 <= f < m_dim m)%Z /\ (0 <= loc < m_dim m * 2)%Z /\ s = st_of q /\ types f loc <> PERIODIC /\
    In (st_of q, p) (gl_points m D r f loc) /\ info = fold_left (pstep (bsb m D types values r f loc)) hist p.
Proof.
  intros F Hr Hin. unfold bpts in Hin. apply in_flat_map in Hin. destruct Hin as (g & Hg & Hin). apply zrange_In in Hg.
  apply in_flat_map in Hin. destruct Hin as (loc & Hl & Hin). apply zrange_In in Hl. apply in_map_iff in Hin.
  destruct Hin as (kp & E & Hin). injection E as -> ->. cbn [sb_after with_points sb_points] in Hin.
  apply (In_map_snd (fun p => fold_left (pstep (bsb m D types values r f loc)) hist p)) in Hin.
  destruct Hin as (p & Hin & ->). rewrite bsb_points in Hin.
  assert (Hp : types f loc <> PERIODIC /\ In (s, p) (gl_points m D r f loc)).
  { destruct (types f loc); try contradiction; (split; [discriminate|exact Hin]). }
  destruct Hp as [Hne Hp]. destruct (gl_points_keys m D r f loc s) as [q ->].
  { apply in_map_iff. exists (s, p). auto. }
  exists loc, q, p. auto 8.
Qed.

Lemma bpts_intro m D types values hist r f loc q p : (0 <= f < m_dim m)%Z -> (0 <= loc < m_dim m * 2)%Z ->
  types f loc <> PERIODIC -> In (st_of q, p) (gl_points m D r f loc) ->
  In (f, (st_of q, fold_left (pstep (bsb m D types values r f loc)) hist p)) (bpts m D types values hist r).
Proof.
  intros Hf Hl Hne Hp. unfold bpts. apply in_flat_map. exists f. split; [now apply zrange_In|].
  apply in_flat_map. exists loc. split; [now apply zrange_In|]. apply in_map. cbn [sb_after with_points sb_points].
  apply in_map_iff. exists (st_of q, p). split; [reflexivity|]. rewrite bsb_points. destruct (types f loc); auto; contradiction.
Qed.

Lemma sizes_pos m D f d : mfacts m D -> (0 <= f < m_dim m \/ f = 3)%Z -> (0 <= d < 3)%Z -> (1 <= m_n m f d)%Z.
Proof. intros F Hf Hd. pose proof (mf_np _ _ F f d Hf Hd). lia. Qed.

Lemma bpts_NoDup m D types values hist r : mfacts m D -> (0 <= r < nranks D)%Z ->
  NoDup (map (fun fkp => (fst fkp, fst (snd fkp))) (bpts m D types values hist r)).
Proof.
  intros F Hr. unfold bpts. pose proof (mf_dim _ _ F) as Hdim.
  rewrite flat_map_concat_map, concat_map, map_map, <- flat_map_concat_map.
  apply NoDup_flat_map; [apply zrange_NoDup| |].
  - intros f Hf. apply zrange_In in Hf. rewrite flat_map_concat_map, concat_map, map_map, <- flat_map_concat_map.
    apply NoDup_flat_map; [apply zrange_NoDup| |].
    + intros loc Hl. apply zrange_In in Hl. rewrite map_map. cbn [fst snd sb_after with_points sb_points]. rewrite map_map. cbn [fst].
      assert (N : NoDup (map fst (sb_points (bsb m D types values r f loc)))).
      { rewrite bsb_points. destruct (types f loc); try (now apply gl_points_NoDup); constructor. }
      rewrite <- (map_map fst (fun s => (f, s))). apply FinFun.Injective_map_NoDup; [intros a b E; congruence|exact N].
    + intros l l' x Hl Hl' A B. apply zrange_In in Hl, Hl'.
      apply in_map_iff in A, B. destruct A as ((g & s & i) & <- & A), B as ((g' & s' & i') & E & B). cbn [fst snd] in E.
      assert (X : forall l0 g0 s0 i0, (0 <= l0 < m_dim m * 2)%Z -> In (g0, (s0, i0)) (map (fun kp => (f, kp)) (sb_points (sb_after (bsb m D types values r f l0) hist))) ->
         g0 = f /\ exists q, s0 = st_of q /\ is_ghost (m_n m f) l0 q).
      { intros l0 g0 s0 i0 Hl0 H. apply in_map_iff in H. destruct H as (kp & E0 & H). injection E0 as E0 E1. subst g0 kp. split; auto.
        cbn [sb_after with_points sb_points] in H. apply in_map_iff in H. destruct H as ((k & p) & E0 & H). injection E0 as -> _.
        rewrite bsb_points in H. assert (Hp : In (s0, p) (gl_points m D r f l0)) by (destruct (types f l0); auto; contradiction).
        assert (Hk : In s0 (map fst (gl_points m D r f l0))) by (apply in_map_iff; exists (s0, p); auto).
        destruct (gl_points_keys _ _ _ _ _ _ Hk) as [q ->]. exists q. split; auto. apply gl_points_In in Hk; auto. tauto. }
      destruct (X _ _ _ _ Hl A) as (-> & q & -> & G). destruct (X _ _ _ _ Hl' B) as (-> & q' & -> & G').
      injection E as E. assert (q' = q). { apply st_of_inj. destruct q as [[? ?] ?], q' as [[? ?] ?]. cbn in *. congruence. } subst q'.
      eapply is_ghost_inj; eauto; try lia. intros d Hd. eapply sizes_pos; eauto.
  - intros f f' x Hf Hf' A B. apply in_map_iff in A, B. destruct A as ((g & s) & <- & A), B as ((g' & s') & E & B). cbn [fst snd] in E.
    apply in_flat_map in A, B. destruct A as (l & _ & A), B as (l' & _ & B). apply in_map_iff in A, B.
    destruct A as (? & EA & _), B as (? & EB & _). injection EA as -> ->. injection EB as -> ->. congruence.
Qed.

Lemma bpts_tid m D types values hist r kp : mfacts m D -> (0 <= r < nranks D)%Z -> In kp (bpts m D types values hist r) ->
  (0 <= gi_tid (snd (snd kp)) < n_velocity m)%Z.
Proof.
  intros F Hr Hin. destruct kp as (f & s & info). destruct (bpts_In _ _ _ _ _ _ _ _ _ F Hr Hin) as (loc & q & p & Hf & Hl & -> & _ & Hp & ->).
  cbn [snd]. rewrite (geom_tid _ _ (psteps_geom _ _ _)).
  destruct (gl_points_info m D r f loc q p F Hf Hl Hr Hp) as (_ & E & _ & L & _). rewrite E. apply idx_range; auto.
  eapply local_interior; eauto. apply (mf_dec _ _ F); auto.
Qed.

Lemma a0_pure m D types values r f loc hist p : types f loc <> PERIODIC -> types f loc <> NOBC -> has_ics hist ->
  gi_a0 (fold_left (pstep (bsb m D types values r f loc)) hist p) =
  match types f loc with NEUMANN => 1 | _ => if (loc_dir loc =? f)%Z then 0 else -1 end.
Proof.
  intros Hne Hnb Hics. pose proof (steps_inv (bsb m D types values r f loc) hist p (or_intror Hics)) as I.
  unfold eqs_inv, dir_eq, neu_eq, con_eq in I.
  assert (X : sb_type (bsb m D types values r f loc) = types f loc /\ sb_loc (bsb m D types values r f loc) = loc /\
              sb_field (bsb m D types values r f loc) = f) by (unfold bsb; destruct (types f loc); auto).
  destruct X as (X1 & X2 & X3). rewrite X1, X2, X3 in I. unfold loc_dir.
  destruct (types f loc); try contradiction; [destruct (_ =? _)%Z; tauto|apply I|exact I].
Qed.

Lemma bpts_same m D types values h0 h1 r : mfacts m D -> (0 <= r < nranks D)%Z -> bc_fits m types ->
  has_ics h0 -> Forall2 same_point (bpts m D types values h0 r) (bpts m D types values (h0 ++ h1) r).
Proof.
  intros F Hr Hb Hics. unfold bpts.
  assert (Hics1 : has_ics (h0 ++ h1)) by (destruct Hics as [v Hv]; exists v; apply in_app_iff; auto).
  assert (FM : forall {A B} (g g' : A -> list B) (P : B -> B -> Prop) l, (forall a, In a l -> Forall2 P (g a) (g' a)) ->
    Forall2 P (flat_map g l) (flat_map g' l)).
  { clear. intros A B g g' P l. induction l as [|a t IH]; intros H; [constructor|]. cbn [flat_map]. apply Forall2_app; [apply H; now left|].
    apply IH. intros. apply H. now right. }
  apply FM. intros f Hf. apply zrange_In in Hf. apply FM. intros loc Hl. apply zrange_In in Hl.
  cbn [sb_after with_points sb_points]. rewrite !map_map.
  assert (G : forall l, (types f loc = PERIODIC -> l = []) -> Forall2 same_point
    (map (fun x : stencil * ginfo => (f, (fst x, fold_left (pstep (bsb m D types values r f loc)) h0 (snd x)))) l)
    (map (fun x => (f, (fst x, fold_left (pstep (bsb m D types values r f loc)) (h0 ++ h1) (snd x)))) l)).
  { intros l Hper. induction l as [|[s p] t IH]; [constructor|]. cbn [map fst snd]. destruct (Hb f loc Hf Hl) as [Hnb _].
    assert (Hne : types f loc <> PERIODIC) by (intros E; specialize (Hper E); discriminate). constructor.
    - unfold same_point. cbn [fst snd]. split; [reflexivity|]. split; [reflexivity|]. split.
      + rewrite !(geom_tid _ _ (psteps_geom _ _ _)). reflexivity.
      + rewrite !a0_pure by auto. reflexivity.
    - apply IH. intros E. contradiction. }
  apply G. intros E. rewrite bsb_points, E. reflexivity.
Qed.

(** The boundary equation of a ghost point evaluates to its refreshed value. *)
Lemma sumR_key {A} (key : A -> Z * stencil) (g : A -> R) (l : list A) a : NoDup (map key l) -> In a l ->
  sumR (fun y => if key_eqb (key a) (key y) then g y else 0) l = g a.
Proof.
  intros Hnd Hin. rewrite (sumR_single _ _ a).
  - now rewrite key_eqb_refl.
  - eapply NoDup_map_inv; eauto.
  - exact Hin.
  - intros y Hy Hne. destruct (key_eqb (key a) (key y)) eqn:E; [|reflexivity]. apply key_eqb_spec in E. exfalso. apply Hne.
    clear - Hnd Hin Hy E. induction l as [|z t IH]; [contradiction|]. cbn in Hnd. inversion Hnd; subst.
    destruct Hin as [->|Hin], Hy as [->|Hy]; auto.
    + exfalso. apply H1. rewrite E. now apply in_map.
    + exfalso. apply H1. rewrite <- E. now apply in_map.
Qed.

Lemma ghost_sum_ext m D types values h B2 x u r f loc q : mfacts m D -> bc_fits m types -> (0 <= r < nranks D)%Z ->
  boundary_after m D types values (h ++ [OpVals x]) B2 -> extends m D B2 x u ->
  (0 <= f < m_dim m)%Z -> (0 <= loc < m_dim m * 2)%Z -> periodic_dir m (loc_dir loc) = false ->
  is_ghost (m_n m f) loc q -> In (inner_of (m_n m f) loc q) (local_points D f r) ->
  ghost_sum (bpts m D types values h) r f (st_of q) x = u f q.
Proof.
  intros F Hb Hr HB (_ & _ & He) Hf Hl Hper G L. destruct (Hb f loc Hf Hl) as [Hnb Hp].
  assert (Hne : types f loc <> PERIODIC) by (intros E; apply Hp in E; congruence).
  assert (Hk : In (st_of q) (map fst (gl_points m D r f loc))) by (apply gl_points_In; auto).
  apply in_map_iff in Hk. destruct Hk as ([s p] & E & Hk). cbn in E. subst s.
  pose proof (bpts_intro m D types values h r f loc q p Hf Hl Hne Hk) as Hin.
  unfold ghost_sum.
  etransitivity. { exact (sumR_key (fun fkp => (fst fkp, fst (snd fkp)))
    (fun fkp => gi_a0 (snd (snd fkp)) * x (gi_tid (snd (snd fkp))) + gi_a1 (snd (snd fkp))) _ _ (bpts_NoDup m D types values h r F Hr) Hin). }
  cbn [snd]. symmetry. apply He. exists r.
  exists (map (fun loc => sb_after (bsb m D types values r f loc) (h ++ [OpVals x])) (zrange 0 (m_dim m * 2))), loc,
    (sb_after (bsb m D types values r f loc) (h ++ [OpVals x])).
  eexists. split; [exact Hr|]. split; [|split; [|split]].
  - rewrite (after_pure _ _ _ _ _ _ r F Hb HB Hr). unfold pure_state. rewrite nthZ_map, nthZ_zrange by lia. reflexivity.
  - rewrite nthZ_map, nthZ_zrange by lia. reflexivity.
  - cbn [sb_after with_points sb_points]. apply in_map_iff. exists (st_of q, p). split; [reflexivity|].
    rewrite bsb_points. destruct (types f loc); auto; contradiction.
  - cbn [fst snd]. rewrite fold_left_app. reflexivity.
Qed.

(** A ghost point without a boundary equation contributes nothing. *)
Lemma ghost_sum_none m D types values h x r f s : (forall info, ~ In (f, (s, info)) (bpts m D types values h r)) ->
  ghost_sum (bpts m D types values h) r f s x = 0.
Proof.
  intros H. unfold ghost_sum. apply sumR_zero. intros (g & s' & i) Hin. cbn [fst snd].
  destruct (key_eqb (f, s) (g, s')) eqn:E; [|reflexivity]. apply key_eqb_spec in E. injection E as -> ->. exfalso. eapply H; eauto.
Qed.

(** * Points next to the domain *)
Lemma wrap_near n x : (1 <= n)%Z -> (-1 <= x <= n)%Z ->
  ((0 <= x < n /\ wrap n x = x) \/ (x = -1 /\ wrap n x = n - 1) \/ (x = n /\ wrap n x = 0))%Z.
Proof.
  intros Hn Hx. unfold wrap. destruct (Z.eq_dec x (-1)) as [->|H1].
  - right; left. split; auto. symmetry. apply (Z.mod_unique (-1) n (-1)); lia.
  - destruct (Z.eq_dec x n) as [->|H2]; [right; right; split; auto; apply Z.mod_same; lia|]. left. split; [lia|]. apply Z.mod_small. lia.
Qed.
Lemma pc_image n q d : (0 <= d < 3)%Z -> pc (image n q) d = wrap (n d) (pc q d).
Proof. intros Hd. destruct q as [[i j] k]. destruct (pt_cases d Hd) as [->|[->| ->]]; reflexivity. Qed.
Lemma in_frame_pc n q : in_frame n q <-> forall d, (0 <= d < 3)%Z -> (-1 <= pc q d <= n d)%Z.
Proof.
  destruct q as [[i j] k]. unfold in_frame, pc. split.
  - intros (A & B & C) d Hd. destruct (pt_cases d Hd) as [->|[->| ->]]; simpl; auto.
  - intros H. pose proof (H 0%Z ltac:(lia)). pose proof (H 1%Z ltac:(lia)). pose proof (H 2%Z ltac:(lia)). simpl in *. auto.
Qed.
Lemma has_image_pc n per q : has_image n per q = true <->
  forall d, (0 <= d < 3)%Z -> outside (n d) (pc q d) = true -> per d = true.
Proof.
  destruct q as [[i j] k]. unfold has_image. rewrite !andb_true_iff, !implb_true_iff. split.
  - intros ((A & B) & C) d Hd. destruct (pt_cases d Hd) as [->|[->| ->]]; simpl; auto.
  - intros H. pose proof (H 0%Z ltac:(lia)). pose proof (H 1%Z ltac:(lia)). pose proof (H 2%Z ltac:(lia)). simpl in *. auto.
Qed.
(** only direction d may be outside *)
Lemma n_outside_one n q d : (0 <= d < 3)%Z -> (forall e, (0 <= e < 3)%Z -> e <> d -> (0 <= pc q e < n e)%Z) ->
  n_outside n q = if outside (n d) (pc q d) then 1%Z else 0%Z.
Proof.
  intros Hd H. destruct q as [[i j] k]. unfold n_outside.
  assert (X : forall e, (0 <= e < 3)%Z -> e <> d -> outside (n e) (pc (i, j, k) e) = false) by (intros e He Hne; specialize (H e He Hne); unfold outside; lia).
  destruct (pt_cases d Hd) as [->|[->| ->]];
    pose proof (X 0%Z ltac:(lia)) as X0; pose proof (X 1%Z ltac:(lia)) as X1; pose proof (X 2%Z ltac:(lia)) as X2; cbn [pc Z.eqb Pos.eqb] in *.
  - rewrite X1, X2 by lia. lia.
  - rewrite X0, X2 by lia. lia.
  - rewrite X0, X1 by lia. lia.
Qed.

Lemma gidx_frame m D f q : mfacts m D -> (0 <= f < m_dim m)%Z -> in_frame (m_n m f) q -> (n_outside (m_n m f) q <= 1)%Z ->
  (has_image (m_n m f) (periodic_dir m) q = false -> gidx m D f (st_of q) = Ok (-1)%Z) /\
  (has_image (m_n m f) (periodic_dir m) q = true -> interior (m_n m f) (image (m_n m f) q) /\
     gidx m D f (st_of q) = Ok (idx m D f (image (m_n m f) q))).
Proof.
  intros F Hf Hfr Ho. destruct q as [[i j] k].
  destruct (packed_ghost true (m_dim m) (m_n m) (periodic_dir m) D f i j k (mf_dim _ _ F)
    ltac:(intros; apply (mf_sizes _ _ F); auto) ltac:(intros g Hg; apply (mf_dec _ _ F); auto) Hf Hfr Ho) as [A B].
  split; intros H.
  - rewrite gidx_st. apply A. exact H.
  - assert (Hin : interior (m_n m f) (image (m_n m f) (i, j, k))).
    { apply interior_pc. intros d Hd. rewrite pc_image by auto. rewrite in_frame_pc in Hfr. specialize (Hfr d Hd).
      pose proof (sizes_pos m D f d F (or_introl Hf) Hd). destruct (wrap_near (m_n m f d) (pc (i, j, k) d)) as [?|[?|?]]; lia. }
    split; [exact Hin|]. destruct (idx_spec m D f _ F Hf Hin) as [E _]. rewrite <- E. rewrite !gidx_st. specialize (B H).
    destruct (image (m_n m f) (i, j, k)) as [[i' j'] k']. exact B.
Qed.

Lemma image_interior n q : (forall d, (0 <= d < 3)%Z -> (1 <= n d)%Z) -> interior n q -> image n q = q.
Proof.
  intros Hn H. apply pt_ext. intros d Hd. rewrite pc_image by auto. rewrite interior_pc in H. specialize (H d Hd).
  unfold wrap. apply Z.mod_small. lia.
Qed.

Lemma ghost_frame n loc q per : (0 <= loc < 6)%Z -> (forall d, (0 <= d < 3)%Z -> (1 <= n d)%Z) -> is_ghost n loc q ->
  in_frame n q /\ n_outside n q = 1%Z /\ has_image n per q = per (loc_dir loc).
Proof.
  intros Hl Hn [G I]. assert (Hd : (0 <= loc_dir loc < 3)%Z) by (pose proof (loc_dir_range 3 loc ltac:(lia)); lia).
  rewrite interior_pc in I. destruct (layers n loc (Hn _ Hd)) as (_ & Lg & _ & Lo).
  assert (O : forall e, (0 <= e < 3)%Z -> e <> loc_dir loc -> (0 <= pc q e < n e)%Z).
  { intros e He Hne. specialize (I e He). rewrite pc_setc in I by auto. replace (e =? loc_dir loc)%Z with false in I by lia. exact I. }
  split; [|split].
  - apply in_frame_pc. intros e He. destruct (Z.eq_dec e (loc_dir loc)) as [->|Hne]; [rewrite G; lia|]. specialize (O e He Hne). lia.
  - rewrite (n_outside_one n q _ Hd O). rewrite G, Lo. reflexivity.
  - destruct (per (loc_dir loc)) eqn:E.
    + apply has_image_pc. intros e He Ho. destruct (Z.eq_dec e (loc_dir loc)) as [->|Hne]; [exact E|]. specialize (O e He Hne). unfold outside in Ho. lia.
    + destruct (has_image n per q) eqn:H; [|reflexivity]. rewrite has_image_pc in H. specialize (H _ Hd). rewrite G, Lo in H. rewrite H in E by auto. discriminate.
Qed.

(** Neighbour of an interior point in direction d. *)
Lemma nb_cases m D f p d s : mfacts m D -> (0 <= f < m_dim m)%Z -> interior (m_n m f) p -> (0 <= d < m_dim m)%Z ->
  (s = 1 \/ s = -1)%Z -> let q := shift p d s in let n := m_n m f in
  in_frame n q /\ n_outside n q = (if outside (n d) (pc p d + s) then 1 else 0)%Z /\
  ((has_image n (periodic_dir m) q = true /\ (0 <= pc p d + s < n d \/ periodic_dir m d = true)%Z /\
      interior n (image n q) /\ gidx m D f (st_of q) = Ok (idx m D f (image n q)))
   \/
   (has_image n (periodic_dir m) q = false /\ periodic_dir m d = false /\ gidx m D f (st_of q) = Ok (-1)%Z /\
      let loc := (2 * d + (if s =? 1 then 1 else 0))%Z in
      (0 <= loc < m_dim m * 2)%Z /\ loc_dir loc = d /\ is_ghost n loc q /\ inner_of n loc q = p)).
Proof.
  intros F Hf Hp Hd Hs q n. pose proof (mf_dim _ _ F) as Hdim.
  assert (Hn : forall e, (0 <= e < 3)%Z -> (1 <= n e)%Z) by (intros; eapply sizes_pos; eauto).
  assert (Hp' := Hp). rewrite interior_pc in Hp. fold n in Hp.
  assert (O : forall e, (0 <= e < 3)%Z -> e <> d -> (0 <= pc q e < n e)%Z).
  { intros e He Hne. unfold q. rewrite pc_shift by lia. replace (e =? d)%Z with false by lia. now apply Hp. }
  assert (Od : pc q d = (pc p d + s)%Z) by (unfold q; rewrite pc_shift by lia; now rewrite Z.eqb_refl).
  pose proof (Hp d ltac:(lia)) as Hpd. pose proof (Hn d ltac:(lia)) as Hnd.
  assert (Fr : in_frame n q).
  { apply in_frame_pc. intros e He. destruct (Z.eq_dec e d) as [->|Hne]; [rewrite Od; lia|]. specialize (O e He Hne). lia. }
  assert (No : n_outside n q = (if outside (n d) (pc p d + s) then 1 else 0)%Z).
  { rewrite (n_outside_one n q d ltac:(lia) O). now rewrite Od. }
  split; [exact Fr|]. split; [exact No|].
  destruct (gidx_frame m D f q F Hf Fr) as [A B]. { fold n. rewrite No. destruct (outside _ _); lia. } fold n in A, B.
  destruct (has_image n (periodic_dir m) q) eqn:H.
  - left. destruct (B eq_refl) as [B1 B2]. split; auto. split; auto. destruct (outside (n d) (pc p d + s)) eqn:E.
    + right. rewrite has_image_pc in H. apply H; [lia|]. now rewrite Od.
    + left. unfold outside in E. lia.
  - right. split; auto.
    assert (E : outside (n d) (pc p d + s) = true /\ periodic_dir m d = false).
    { destruct (outside (n d) (pc p d + s)) eqn:E; [split; auto; destruct (periodic_dir m d) eqn:E1; auto|]; exfalso;
        assert (X : has_image n (periodic_dir m) q = true); try congruence; apply has_image_pc; intros e He Ho;
        (destruct (Z.eq_dec e d) as [->|Hne]; [|specialize (O e He Hne); unfold outside in Ho; lia]); auto. rewrite Od in Ho. congruence. }
    destruct E as [E1 E2]. split; auto. split; [now apply A|]. intros loc.
    assert (Hloc : (0 <= loc < m_dim m * 2)%Z /\ loc_dir loc = d /\ (loc mod 2 =? 0)%Z = negb (s =? 1)%Z).
    { unfold loc, loc_dir. destruct Hs as [->| ->]; cbn [Z.eqb Pos.eqb negb].
      - rewrite <- (Z.div_unique (2 * d + 1) 2 d 1) by lia. rewrite <- (Z.mod_unique (2 * d + 1) 2 d 1) by lia. split; [lia|split; reflexivity].
      - rewrite <- (Z.div_unique (2 * d + 0) 2 d 0) by lia. rewrite <- (Z.mod_unique (2 * d + 0) 2 d 0) by lia. split; [lia|split; reflexivity]. }
    destruct Hloc as (L1 & L2 & L3). split; auto. split; auto. unfold is_ghost, inner_of. rewrite L2.
    unfold ghost_layer, inner_layer. rewrite L3, L2. unfold outside in E1.
    assert (Es : setc q d (if negb (s =? 1)%Z then 0 else n d - 1)%Z = p).
    { apply pt_ext. intros e He. rewrite pc_setc by lia. destruct (Z.eqb_spec e d) as [->|Hne].
      - destruct Hs as [->| ->]; cbn; lia.
      - unfold q. rewrite pc_shift by lia. replace (e =? d)%Z with false by lia. reflexivity. }
    rewrite Es. split; [split; [|exact Hp']|reflexivity]. rewrite Od. destruct Hs as [->| ->]; cbn; lia.
Qed.

(** * Non-vacuity: the extended field always exists *)
Lemma ghost_value_pure m D types values hist B f q v : mfacts m D -> bc_fits m types ->
  boundary_after m D types values hist B -> ghost_value D B f q v ->
  exists r loc p, (0 <= r < nranks D)%Z /\ (0 <= f < m_dim m)%Z /\ (0 <= loc < m_dim m * 2)%Z /\ types f loc <> PERIODIC /\
    In (st_of q, p) (gl_points m D r f loc) /\ v = gi_value (fold_left (pstep (bsb m D types values r f loc)) hist p).
Proof.
  intros F Hb HB (r & row & loc & sb & info & Hr & E1 & E2 & Hin & ->).
  rewrite (after_pure _ _ _ _ _ _ r F Hb HB Hr) in E1. unfold pure_state in E1. rewrite nthZ_map in E1.
  destruct (nthZ (zrange 0 (m_dim m)) f) as [f'|] eqn:Ef; [|discriminate].
  assert (Hf : (0 <= f < m_dim m)%Z).
  { apply nthZ_Some_range in Ef. rewrite zrange_lenZ in Ef by (pose proof (mf_dim _ _ F); lia). lia. }
  rewrite nthZ_zrange in Ef by lia. injection Ef as <-. cbn in E1. injection E1 as <-. rewrite nthZ_map in E2.
  destruct (nthZ (zrange 0 (m_dim m * 2)) loc) as [l'|] eqn:El; [|discriminate].
  assert (Hl : (0 <= loc < m_dim m * 2)%Z).
  { apply nthZ_Some_range in El. rewrite zrange_lenZ in El by (pose proof (mf_dim _ _ F); lia). lia. }
  rewrite nthZ_zrange in El by lia. injection El as <-. cbn [option_map] in E2. injection E2 as <-.
  cbn [Z.add] in Hin. cbn [sb_after with_points sb_points] in Hin.
  apply (In_map_snd (fun p => fold_left (pstep (bsb m D types values r f loc)) hist p)) in Hin. destruct Hin as (p & Hp & ->).
  rewrite bsb_points in Hp. exists r, loc, p. repeat (split; [lia|]).
  destruct (types f loc); try contradiction; (split; [discriminate|split; [exact Hp|reflexivity]]).
Qed.

Lemma extends_exists m D types values hist B x : mfacts m D -> bc_fits m types ->
  boundary_after m D types values hist B -> exists u, extends m D B x u.
Proof.
  intros F Hb HB.
  set (look := fun f q => sumR (fun r => sumR (fun fkp => if key_eqb (f, st_of q) (fst fkp, fst (snd fkp)) then gi_value (snd (snd fkp)) else 0)
                 (bpts m D types values hist r)) (zrange 0 (nranks D))).
  exists (fun f q => let c := idx m D f q in if (c =? -1)%Z then look f q else x c).
  assert (DA : dec_all (m_dim m) D (m_n m)) by (intros g Hg; apply (mf_dec _ _ F); auto).
  split; [|split].
  - intros id f p Hn. pose proof (nthZ_In _ _ _ Hn) as Hin. apply (packed_layout_In _ _ (m_n m)) in Hin; auto. destruct Hin as [Hf Hp].
    destruct (idx_spec m D f p F Hf Hp) as [_ N]. pose proof (idx_range m D f p F Hf Hp).
    cbv zeta. replace (idx m D f p =? -1)%Z with false by lia. f_equal.
    eapply nthZ_NoDup_inj; eauto. eapply packed_layout_NoDup; eauto.
  - intros f q Hf Hfr Ho Hi. destruct (gidx_frame m D f q F Hf Hfr ltac:(lia)) as [_ A]. destruct (A Hi) as [A1 A2].
    cbv zeta. assert (E : idx m D f q = idx m D f (image (m_n m f) q)) by (unfold idx at 1; rewrite A2; reflexivity).
    rewrite E. pose proof (idx_range m D f _ F Hf A1). replace (idx m D f (image (m_n m f) q) =? -1)%Z with false by lia. reflexivity.
  - intros f q v Hv. destruct (ghost_value_pure _ _ _ _ _ _ _ _ _ F Hb HB Hv) as (r & loc & p & Hr & Hf & Hl & Hne & Hp & ->).
    destruct (Hb f loc Hf Hl) as [_ Hper]. pose proof (mf_dim _ _ F) as Hdim.
    assert (Hp0 : periodic_dir m (loc_dir loc) = false) by (destruct (periodic_dir m (loc_dir loc)); auto; exfalso; apply Hne; now apply Hper).
    assert (Hk : In (st_of q) (map fst (gl_points m D r f loc))) by (apply in_map_iff; eexists; split; [|exact Hp]; reflexivity).
    pose proof Hk as Hk0. apply gl_points_In in Hk; auto. destruct Hk as [G L].
    destruct (ghost_frame (m_n m f) loc q (periodic_dir m) ltac:(lia) ltac:(intros; eapply sizes_pos; eauto) G) as (Fr & No & Im).
    destruct (gidx_frame m D f q F Hf Fr ltac:(lia)) as [A _]. rewrite Im, Hp0 in A. specialize (A eq_refl).
    cbv zeta. replace (idx m D f q) with (-1)%Z by (unfold idx; rewrite A; reflexivity). cbn [Z.eqb Pos.eqb].
    unfold look. rewrite (sumR_single _ _ r).
    + pose proof (bpts_intro m D types values hist r f loc q p Hf Hl Hne Hp) as Hin.
      exact (sumR_key (fun fkp => (fst fkp, fst (snd fkp))) (fun fkp => gi_value (snd (snd fkp))) _ _ (bpts_NoDup m D types values hist r F Hr) Hin).
    + apply zrange_NoDup.
    + now apply zrange_In.
    + intros r' Hr' Hne'. apply zrange_In in Hr'. apply sumR_zero. intros (g & s & i) Hin. cbn [fst snd].
      destruct (key_eqb (f, st_of q) (g, s)) eqn:E; [|reflexivity]. apply key_eqb_spec in E. injection E as <- <-. exfalso. apply Hne'.
      destruct (bpts_In _ _ _ _ _ _ _ _ _ F Hr' Hin) as (loc' & q' & p' & _ & Hl' & Eq & _ & Hp' & _).
      apply st_of_inj in Eq. subst q'.
      assert (Hk' : In (st_of q) (map fst (gl_points m D r' f loc'))) by (apply in_map_iff; eexists; split; [|exact Hp']; reflexivity).
      pose proof Hk' as Hk1. apply gl_points_In in Hk'; auto. destruct Hk' as [G' L'].
      assert (loc' = loc) by (eapply is_ghost_inj; eauto; [lia|lia|intros; eapply sizes_pos; eauto]). subst loc'.
      eapply owner_unique; eauto.
Qed.
