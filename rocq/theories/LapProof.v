From Coq Require Import Permutation ZifyBool.
From Verif Require Import Prelude ZSum RSum TypesModel GridModel GridSpec GridProof MeshProof
  IndexModel IndexSpec IndexProof BoundaryModel BoundarySpec BoundaryProof OperatorModel OperatorSpec OperatorProof BStateProof.
Local Open Scope R_scope.

(** * Assembly of rows *)
Definition row_step (s : ast) (ri : rowspec) : ast :=
  mkAst (as_log s ++ row_events ri) (fold_left put_ghost (row_ghosts ri) (as_mods s)).

Lemma row_steps rows s : fold_left row_step rows s =
  mkAst (as_log s ++ rows_log rows) (fold_left put_ghost (flat_map row_ghosts rows) (as_mods s)).
Proof.
  revert s. induction rows as [|ri t IH]; intros s; cbn [fold_left].
  - unfold rows_log. cbn. rewrite app_nil_r. destruct s; reflexivity.
  - rewrite IH. unfold row_step. cbn [as_log as_mods rows_log flat_map]. unfold rows_log. cbn [flat_map].
    rewrite <- app_assoc. rewrite fold_left_app. reflexivity.
Qed.

Lemma foldM_rows {A} (f : ast -> A -> res ast) (row : A -> rowspec) l :
  (forall s a, In a l -> f s a = Ok (row_step s (row a))) -> forall s,
  foldM f l s = Ok (fold_left row_step (map row l) s).
Proof.
  intros H. induction l as [|a t IH]; intros s; [reflexivity|]. cbn [foldM map fold_left]. rewrite H by (now left). cbn [bind].
  apply IH. intros. apply H. now right.
Qed.

Lemma foldM_rows2 {A B} (f : B -> ast -> A -> res ast) (row : B -> A -> rowspec) (g : B -> list A) lb :
  (forall b s a, In b lb -> In a (g b) -> f b s a = Ok (row_step s (row b a))) -> forall s,
  foldM (fun s b => foldM (f b) (g b) s) lb s = Ok (fold_left row_step (flat_map (fun b => map (row b) (g b)) lb) s).
Proof.
  intros H. induction lb as [|b t IH]; intros s; [reflexivity|]. cbn [foldM flat_map]. rewrite fold_left_app.
  rewrite (foldM_rows (f b) (row b)) by (intros; apply H; auto; now left). cbn [bind].
  apply IH. intros. apply H; auto. now right.
Qed.

Lemma NoDup_filter_map {A} (P : Z -> bool) (g : A -> Z) l : NoDup l ->
  (forall a b, In a l -> In b l -> P (g a) = true -> g a = g b -> a = b) -> NoDup (filter P (map g l)).
Proof.
  induction l as [|a t IH]; intros Hnd H; [constructor|]. cbn [map filter]. inversion Hnd as [|a0 t0 Ha Ht E0].
  assert (IHt : NoDup (filter P (map g t))) by (apply IH; auto; intros; apply H; auto; now right).
  destruct (P (g a)) eqn:E; [|exact IHt]. constructor; [|exact IHt]. intros Hin. apply filter_In in Hin. destruct Hin as [Hin _].
  apply in_map_iff in Hin. destruct Hin as (b & Eb & Hb). apply Ha. rewrite (H a b); auto; [now left|now right].
Qed.

(** Common shape of the Laplacian and the divergence: rank r sets the rows
    [rows r]; the boundary points were known with history h0 at assembly and h0
    ++ h1 at the correction. *)
Section Op.
Variables (m : mesh) (D : dec) (types : Z -> Z -> bctype) (values : Z -> Z -> R).
Variables (rows : Z -> list rowspec) (h0 h1 : list bop).
Hypothesis F : mfacts m D.
Hypothesis Hb : bc_fits m types.
Hypothesis Hics : has_ics h0.

Definition op_of : oper :=
  mkOper (asm_ins (nranks D) rows ++ asm_adds (nranks D) rows (bpts m D types values h0))
         (map (fun r => rows_mods (rows r)) (zrange 0 (nranks D))).

Lemma assemble (rank : Z -> res ast) B0 : boundary_after m D types values h0 B0 ->
  (forall r, (0 <= r < nranks D)%Z -> rank r = Ok (fold_left row_step (rows r) as_init)) ->
  (do ranks <- mapM rank (zrange 0 (nranks D));
   do adds <- mapM (fun r => do s <- rd ranks r; add_phase m (as_mods s) (B0 r)) (zrange 0 (nranks D));
   Ok (mkOper (concat (map as_log ranks) ++ concat adds) (map as_mods ranks))) = Ok op_of.
Proof.
  intros HB Hrank. rewrite (mapM_ok rank (fun r => fold_left row_step (rows r) as_init)).
  2: { intros r Hr. apply zrange_In in Hr. auto. }
  cbn [bind].
  rewrite (mapM_ok _ (fun r => map (fun fkp => let '(f, (key, p)) := fkp in
       let '(row, coeff) := mod_get (rows_mods (rows r)) f key in mkEv row (gi_tid p) (coeff * gi_a0 p) ADD_VALUES) (bpts m D types values h0 r))).
  2: { intros r Hr. apply zrange_In in Hr. unfold rd. rewrite nthZ_map, nthZ_zrange by lia. cbn [option_map bind].
       unfold add_phase. rewrite (after_pure _ _ _ _ _ _ r F Hb HB Hr). rewrite rank_points_pure. cbn [bind].
       rewrite Z.add_0_l. rewrite row_steps. reflexivity. }
  cbn [bind]. f_equal. unfold op_of, asm_ins, asm_adds. rewrite !flat_map_concat_map. f_equal.
  - f_equal. rewrite map_map. f_equal. apply map_ext. intros r. rewrite row_steps. reflexivity.
  - rewrite map_map. apply map_ext. intros r. rewrite row_steps. reflexivity.
Qed.

Lemma correct B1 : boundary_after m D types values (h0 ++ h1) B1 ->
  correction_mult m (nranks D) op_of B1 = Ok (vec_add_all (asm_corr (nranks D) rows (bpts m D types values (h0 ++ h1)))).
Proof.
  intros HB. unfold correction_mult, correction_events.
  rewrite (mapM_ok _ (fun r => map (fun fkp => let '(f, (key, p)) := fkp in
       let '(row, coeff) := mod_get (rows_mods (rows r)) f key in (row, coeff * gi_a1 p)) (bpts m D types values (h0 ++ h1) r))).
  2: { intros r Hr. apply zrange_In in Hr. unfold rd, op_of. cbn [op_mods]. rewrite nthZ_map, nthZ_zrange by lia. cbn [option_map bind].
       rewrite (after_pure _ _ _ _ _ _ r F Hb HB Hr). rewrite rank_points_pure. cbn [bind]. rewrite Z.add_0_l. reflexivity. }
  cbn [bind]. unfold asm_corr. rewrite flat_map_concat_map. reflexivity.
Qed.

Lemma op_row x r Row items :
  NoDup (map fst (all_rows (nranks D) rows)) ->
  (forall r ri, (0 <= r < nranks D)%Z -> In ri (rows r) ->
     NoDup (filter (fun c => (0 <=? c)%Z) (map it_col (snd ri))) /\
     (forall it, In it (snd ri) -> it_col it = (-1)%Z \/ (0 <= it_col it < n_velocity m)%Z)) ->
  (forall r, (0 <= r < nranks D)%Z -> NoDup (map fst (flat_map row_ghosts (rows r)))) ->
  (0 <= r < nranks D)%Z -> In (Row, items) (rows r) ->
  mat_mult (op_log op_of) (n_velocity m) x Row + vec_add_all (asm_corr (nranks D) rows (bpts m D types values (h0 ++ h1))) Row
  = sumR (fun it => it_val it * (if (0 <=? it_col it)%Z then x (it_col it)
                                 else ghost_sum (bpts m D types values (h0 ++ h1)) r (it_f it) (it_st it) x)) items.
Proof.
  intros HR HI HK Hr Hin. apply (assembly_row (nranks D) (n_velocity m) rows (bpts m D types values h0) (bpts m D types values (h0 ++ h1))); auto.
  - intros r' kp Hr' Hkp. eapply bpts_tid; eauto.
  - intros r' Hr'. apply bpts_same; auto.
Qed.
End Op.

(** * Laplacian *)
Definition lapm (m : mesh) (f : Z) (p : pt) (d : Z) : R :=
  1 / ((crd m f d (pc p d) - crd m f d (pc p d - 1)) * wid m f d (pc p d)).
Definition lapp (m : mesh) (f : Z) (p : pt) (d : Z) : R :=
  1 / ((crd m f d (pc p d + 1) - crd m f d (pc p d)) * wid m f d (pc p d)).
Definition lap_offs (m : mesh) (D : dec) (f : Z) (p : pt) : list item :=
  flat_map (fun d => [mkIt f (st_of (shift p d (-1))) (idx m D f (shift p d (-1))) (lapm m f p d);
                      mkIt f (st_of (shift p d 1)) (idx m D f (shift p d 1)) (lapp m f p d)]) (zrange 0 (m_dim m)).
Definition lap_items (m : mesh) (D : dec) (f : Z) (p : pt) : list item :=
  mkIt f (st_of p) (idx m D f p) (- sumR it_val (lap_offs m D f p)) :: lap_offs m D f p.
Definition lap_rows (m : mesh) (D : dec) (r : Z) : list rowspec :=
  flat_map (fun f => map (fun p => (idx m D f p, lap_items m D f p)) (local_points D f r)) (zrange 0 (m_dim m)).

Lemma idx_nb m D f p d s : mfacts m D -> (0 <= f < m_dim m)%Z -> interior (m_n m f) p -> (0 <= d < m_dim m)%Z ->
  (s = 1 \/ s = -1)%Z -> gidx m D f (st_of (shift p d s)) = Ok (idx m D f (shift p d s)).
Proof.
  intros F Hf Hp Hd Hs. destruct (nb_cases m D f p d s F Hf Hp Hd Hs) as (_ & _ & [H|H]); unfold idx at 1.
  - destruct H as (_ & _ & _ & E). rewrite E. reflexivity.
  - destruct H as (_ & _ & E & _). rewrite E. reflexivity.
Qed.

Lemma lap_dir_ok m D f i j k d : mfacts m D -> (0 <= f < m_dim m)%Z -> interior (m_n m f) (i, j, k) -> (0 <= d < m_dim m)%Z ->
  lap_dir_vals m f i j k d = Ok (lapm m f (i, j, k) d, lapp m f (i, j, k) d).
Proof.
  intros F Hf Hp Hd. rewrite interior_pc in Hp. pose proof (mf_dim _ _ F) as Hdim. specialize (Hp d ltac:(lia)).
  unfold lap_dir_vals, lapm, lapp.
  change (if (d =? 0)%Z then i else if (d =? 1)%Z then j else k) with (pc (i, j, k) d). cbv zeta.
  destruct (mf_wid _ _ F f d (pc (i, j, k) d) Hf Hd ltac:(lia)) as [W _]. rewrite W.
  rewrite !(mf_coord _ _ F) by (auto; lia). reflexivity.
Qed.

Lemma setRow_ok m D f s p : mfacts m D -> (0 <= f < m_dim m)%Z -> interior (m_n m f) p ->
  setRowValues m D f s p = Ok (row_step s (idx m D f p, lap_items m D f p)).
Proof.
  intros F Hf Hp. destruct p as [[i j] k]. unfold setRowValues.
  assert (Sub : forall a, (a - 1 = a + -1)%Z) by (intros; lia).
  assert (Nb : forall d z, (0 <= d < m_dim m)%Z -> (z = 1 \/ z = -1)%Z -> gidx m D f (st_of (shift (i, j, k) d z)) = Ok (idx m D f (shift (i, j, k) d z)))
    by (intros; now apply idx_nb).
  destruct (idx_spec m D f (i, j, k) F Hf Hp) as [E0 _].
  rewrite (mapM_ok (lap_dir_vals m f i j k) (fun d => (lapm m f (i, j, k) d, lapp m f (i, j, k) d)))
    by (intros d Hd; apply zrange_In in Hd; now apply (lap_dir_ok m D)).
  unfold row_step, row_events, row_ghosts, ghost_items, lap_items, lap_offs, lap_stencils. rewrite !Sub.
  pose proof (Nb 0%Z (-1)%Z ltac:(pose proof (mf_dim _ _ F); lia) ltac:(auto)) as A1. pose proof (Nb 0%Z 1%Z ltac:(pose proof (mf_dim _ _ F); lia) ltac:(auto)) as A2.
  pose proof (Nb 1%Z (-1)%Z ltac:(pose proof (mf_dim _ _ F); lia) ltac:(auto)) as A3. pose proof (Nb 1%Z 1%Z ltac:(pose proof (mf_dim _ _ F); lia) ltac:(auto)) as A4.
  cbn [st_of shift setc pc Z.eqb Pos.eqb] in A1, A2, A3, A4, E0.
  destruct (mf_dim _ _ F) as [Ed|Ed]; rewrite Ed.
  - change (zrange 0 2) with [0; 1]%Z. change (2 =? 3)%Z with false. cbn [app mapM].
    rewrite E0, A1, A2, A3, A4. cbn [bind].
    cbn [map flat_map app fst snd combine st_of shift setc pc Z.eqb Pos.eqb rd nthZ].
    unfold rd, nthZ. cbn [Z.ltb Z.compare Z.to_nat nth_error bind].
    unfold log_set. cbn [fold_left fst snd as_log as_mods filter it_f it_st it_col it_val sumR].
    rewrite <- !app_assoc. cbn [app]. f_equal.
    repeat match goal with |- context[if (?c =? -1)%Z then _ else _] => destruct (c =? -1)%Z end; reflexivity.
  - pose proof (Nb 2%Z (-1)%Z ltac:(lia) ltac:(auto)) as A5. pose proof (Nb 2%Z 1%Z ltac:(lia) ltac:(auto)) as A6.
    cbn [st_of shift setc pc Z.eqb Pos.eqb] in A5, A6.
    change (zrange 0 3) with [0; 1; 2]%Z. change (3 =? 3)%Z with true. cbn [app mapM].
    rewrite E0, A1, A2, A3, A4, A5, A6. cbn [bind].
    cbn [map flat_map app fst snd combine st_of shift setc pc Z.eqb Pos.eqb rd nthZ].
    unfold rd, nthZ. cbn [Z.ltb Z.compare Z.to_nat nth_error bind].
    unfold log_set. cbn [fold_left fst snd as_log as_mods filter it_f it_st it_col it_val sumR].
    rewrite <- !app_assoc. cbn [app]. f_equal.
    repeat match goal with |- context[if (?c =? -1)%Z then _ else _] => destruct (c =? -1)%Z end; reflexivity.
Qed.

Lemma laplacian_rank_ok m D r : mfacts m D -> (0 <= r < nranks D)%Z ->
  laplacian_rank m D r = Ok (fold_left row_step (lap_rows m D r) as_init).
Proof.
  intros F Hr. unfold laplacian_rank, lap_rows.
  apply (foldM_rows2 (fun f => setRowValues m D f) (fun f p => (idx m D f p, lap_items m D f p)) (fun f => local_points D f r)).
  intros f s p Hf Hp. apply zrange_In in Hf. apply setRow_ok; auto. eapply local_interior; eauto. apply (mf_dec _ _ F); auto.
Qed.

(** Rows of velocity-point type: one row per velocity point, numbered by idx. *)
Lemma vrows_NoDup m D (items : Z -> pt -> list item) : mfacts m D ->
  NoDup (map fst (all_rows (nranks D) (fun r =>
    flat_map (fun f => map (fun p => (idx m D f p, items f p)) (local_points D f r)) (zrange 0 (m_dim m))))).
Proof.
  intros F. unfold all_rows.
  assert (DA : dec_all (m_dim m) D (m_n m)) by (intros g Hg; apply (mf_dec _ _ F); auto).
  assert (E : flat_map (fun r => flat_map (fun f => map (fun p => (idx m D f p, items f p)) (local_points D f r)) (zrange 0 (m_dim m))) (zrange 0 (nranks D))
    = map (fun fp => (idx m D (fst fp) (snd fp), items (fst fp) (snd fp))) (packed_layout (m_dim m) D)).
  { unfold packed_layout. induction (zrange 0 (nranks D)) as [|r t IH]; [reflexivity|]. cbn [flat_map]. rewrite map_app, IH. f_equal.
    clear IH. induction (zrange 0 (m_dim m)) as [|f t' IH']; [reflexivity|]. cbn [flat_map]. rewrite map_app, IH'. f_equal. now rewrite map_map. }
  match goal with |- NoDup (map fst ?l) => replace l with
    (map (fun fp : Z * pt => (idx m D (fst fp) (snd fp), items (fst fp) (snd fp))) (packed_layout (m_dim m) D)) by (symmetry; exact E) end.
  rewrite map_map. cbn [fst].
  assert (G : forall l, NoDup l -> (forall f p, In (f, p) l -> (0 <= f < m_dim m)%Z /\ interior (m_n m f) p) ->
     NoDup (map (fun fp => idx m D (fst fp) (snd fp)) l)).
  { induction l as [|[f p] t IH]; intros Hnd Hin; [constructor|]. cbn [map fst snd]. inversion Hnd as [|a b Ha Ht Ee]; subst. constructor.
    - intros Hi. apply in_map_iff in Hi. destruct Hi as ([f' p'] & Ei & Hi). cbn [fst snd] in Ei.
      destruct (Hin f p (or_introl eq_refl)). destruct (Hin f' p' (or_intror Hi)).
      apply idx_inj in Ei; auto. destruct Ei as [-> ->]. contradiction.
    - apply IH; auto. intros f' p' Hi. apply Hin. now right. }
  apply G; [eapply packed_layout_NoDup; eauto|]. intros f p Hin. apply (packed_layout_In _ _ (m_n m)) in Hin; auto.
Qed.

Definition star (dim : Z) (p : pt) : list pt := p :: flat_map (fun d => [shift p d (-1); shift p d 1]) (zrange 0 dim).
Lemma lap_items_cols m D f p : map it_col (lap_items m D f p) = map (idx m D f) (star (m_dim m) p).
Proof.
  unfold lap_items, lap_offs, star. cbn [map it_col]. f_equal. induction (zrange 0 (m_dim m)) as [|d t IH]; [reflexivity|]. cbn. rewrite IH. reflexivity.
Qed.
Lemma star_In dim p q : In q (star dim p) <-> q = p \/ exists d s, (0 <= d < dim)%Z /\ (s = 1 \/ s = -1)%Z /\ q = shift p d s.
Proof.
  unfold star. cbn [In]. rewrite in_flat_map. split.
  - intros [->|(d & Hd & H)]; [now left|]. apply zrange_In in Hd. right. destruct H as [<-|[<-|[]]]; eauto 6.
  - intros [->|(d & s & Hd & Hs & ->)]; [now left|]. right. exists d. split; [now apply zrange_In|]. destruct Hs as [->| ->]; cbn; auto.
Qed.
Lemma star_NoDup dim p : (dim = 2 \/ dim = 3)%Z -> NoDup (star dim p).
Proof.
  intros [->| ->]; destruct p as [[i j] k].
  - change (star 2 (i, j, k)) with [(i, j, k); (i + -1, j, k)%Z; (i + 1, j, k)%Z; (i, j + -1, k)%Z; (i, j + 1, k)%Z].
    repeat constructor; cbn [In]; intros H; repeat (destruct H as [H|H]; [injection H; lia|]); exact H.
  - change (star 3 (i, j, k)) with [(i, j, k); (i + -1, j, k)%Z; (i + 1, j, k)%Z; (i, j + -1, k)%Z; (i, j + 1, k)%Z; (i, j, k + -1)%Z; (i, j, k + 1)%Z].
    repeat constructor; cbn [In]; intros H; repeat (destruct H as [H|H]; [injection H; lia|]); exact H.
Qed.

(** The column of a star point: an interior point, or -1. *)
Lemma star_col m D f p q : mfacts m D -> (0 <= f < m_dim m)%Z -> interior (m_n m f) p -> In q (star (m_dim m) p) ->
  let n := m_n m f in
  (interior n (image n q) /\ idx m D f q = idx m D f (image n q) /\
    (forall d, (0 <= d < 3)%Z -> (0 <= pc q d < n d)%Z \/ (-1 <= pc q d <= n d /\ 0 <= d < m_dim m)%Z /\ periodic_dir m d = true))
  \/ (idx m D f q = (-1)%Z /\ exists loc, (0 <= loc < m_dim m * 2)%Z /\ periodic_dir m (loc_dir loc) = false /\ is_ghost n loc q /\ inner_of n loc q = p).
Proof.
  intros F Hf Hp Hq n. pose proof (mf_dim _ _ F) as Hdim. assert (Hp' := Hp). rewrite interior_pc in Hp. fold n in Hp.
  assert (Hn : forall e, (0 <= e < 3)%Z -> (1 <= n e)%Z) by (intros; eapply sizes_pos; eauto).
  apply star_In in Hq. destruct Hq as [->|(d & s & Hd & Hs & ->)].
  - left. rewrite image_interior by auto. split; auto.
  - destruct (nb_cases m D f p d s F Hf Hp' Hd Hs) as (Fr & No & [(Hi & Hor & Hint & E)|(Hi & Hper & E & L1 & L2 & L3 & L4)]).
    + left. split; auto. split; [unfold idx at 1; rewrite E; reflexivity|]. intros e He. rewrite pc_shift by lia.
      destruct (Z.eqb_spec e d) as [->|Hne]; [|left; now apply Hp]. destruct Hor as [Hor|Hor]; [now left|]. right. split; auto.
      split; [|lia]. specialize (Hp d He). lia.
    + right. split; [unfold idx; rewrite E; reflexivity|]. eexists. split; [exact L1|]. rewrite L2. auto.
Qed.

Lemma star_image_inj m D f p q q' : mfacts m D -> (0 <= f < m_dim m)%Z -> interior (m_n m f) p -> periodic_min m 3 ->
  In q (star (m_dim m) p) -> In q' (star (m_dim m) p) -> let n := m_n m f in
  (forall d, (0 <= d < 3)%Z -> (0 <= pc q d < n d)%Z \/ (-1 <= pc q d <= n d /\ 0 <= d < m_dim m)%Z /\ periodic_dir m d = true) ->
  (forall d, (0 <= d < 3)%Z -> (0 <= pc q' d < n d)%Z \/ (-1 <= pc q' d <= n d /\ 0 <= d < m_dim m)%Z /\ periodic_dir m d = true) ->
  image n q = image n q' -> q = q'.
Proof.
  intros F Hf Hp Hmin Hq Hq' n A A' E. pose proof (mf_dim _ _ F) as Hdim. rewrite interior_pc in Hp. fold n in Hp.
  apply pt_ext. intros e He.
  assert (Ee : wrap (n e) (pc q e) = wrap (n e) (pc q' e)) by (rewrite <- !pc_image by auto; now rewrite E).
  assert (Hne : (1 <= n e)%Z) by (eapply sizes_pos; eauto).
  assert (Near : forall z, In z (star (m_dim m) p) -> (pc p e - 1 <= pc z e <= pc p e + 1)%Z).
  { intros z Hz. apply star_In in Hz. destruct Hz as [->|(d & s & Hd & Hs & ->)]; [lia|]. rewrite pc_shift by lia. destruct (Z.eqb_spec e d) as [->|]; lia. }
  pose proof (Near q Hq). pose proof (Near q' Hq'). specialize (Hp e He). specialize (A e He). specialize (A' e He).
  assert (Hm : (0 <= e < m_dim m)%Z -> periodic_dir m e = true -> (3 <= n e)%Z) by (intros; unfold n; now apply Hmin).
  destruct A as [A|[[A A1] A2]], A' as [A'|[[A' A1'] A2']];
    try specialize (Hm ltac:(assumption) ltac:(assumption));
    destruct (wrap_near (n e) (pc q e)) as [[? ?]|[[? ?]|[? ?]]]; try lia;
    destruct (wrap_near (n e) (pc q' e)) as [[? ?]|[[? ?]|[? ?]]]; lia.
Qed.

Lemma lap_HI m D r ri : mfacts m D -> periodic_min m 3 -> (0 <= r < nranks D)%Z -> In ri (lap_rows m D r) ->
  NoDup (filter (fun c => (0 <=? c)%Z) (map it_col (snd ri))) /\
  (forall it, In it (snd ri) -> it_col it = (-1)%Z \/ (0 <= it_col it < n_velocity m)%Z).
Proof.
  intros F Hmin Hr Hri. unfold lap_rows in Hri. apply in_flat_map in Hri. destruct Hri as (f & Hf & Hri). apply zrange_In in Hf.
  apply in_map_iff in Hri. destruct Hri as (p & <- & Hp). cbn [snd].
  assert (Hint : interior (m_n m f) p) by (eapply local_interior; eauto; apply (mf_dec _ _ F); auto).
  rewrite lap_items_cols. split.
  - apply NoDup_filter_map; [apply star_NoDup, (mf_dim _ _ F)|]. intros q q' Hq Hq' Hpos E.
    destruct (star_col m D f p q F Hf Hint Hq) as [(I1 & E1 & C1)|[E1 _]]; [|rewrite E1 in Hpos; discriminate].
    destruct (star_col m D f p q' F Hf Hint Hq') as [(I2 & E2 & C2)|[E2 _]]; [|rewrite E, E2 in Hpos; discriminate].
    rewrite E1, E2 in E. apply idx_inj in E; auto. destruct E as [_ E]. exact (star_image_inj m D f p q q' F Hf Hint Hmin Hq Hq' C1 C2 E).
  - intros it Hit. assert (X : In (it_col it) (map (idx m D f) (star (m_dim m) p))) by (rewrite <- lap_items_cols; now apply in_map).
    apply in_map_iff in X. destruct X as (q & <- & Hq).
    destruct (star_col m D f p q F Hf Hint Hq) as [(I1 & E1 & C1)|[E1 _]]; [right; rewrite E1; now apply idx_range|now left].
Qed.

(** Ghost items: keyed by a ghost point; the point determines the row. *)
Lemma lap_ghost_items m D f p it : mfacts m D -> (0 <= f < m_dim m)%Z -> interior (m_n m f) p ->
  In it (ghost_items (lap_items m D f p)) -> it_f it = f /\ exists q loc, it_st it = st_of q /\ In q (star (m_dim m) p) /\
    (0 <= loc < m_dim m * 2)%Z /\ periodic_dir m (loc_dir loc) = false /\ is_ghost (m_n m f) loc q /\ inner_of (m_n m f) loc q = p.
Proof.
  intros F Hf Hp Hin. unfold ghost_items in Hin. apply filter_In in Hin. destruct Hin as [Hin Hc].
  assert (X : it_f it = f /\ exists q, In q (star (m_dim m) p) /\ it_st it = st_of q /\ it_col it = idx m D f q).
  { unfold lap_items in Hin. destruct Hin as [<-|Hin]; [split; [reflexivity|]; exists p; split; [now left|auto]|].
    unfold lap_offs in Hin. apply in_flat_map in Hin. destruct Hin as (d & Hd & Hin). apply zrange_In in Hd.
    destruct Hin as [<-|[<-|[]]]; (split; [reflexivity|]).
    - exists (shift p d (-1)). split; [apply star_In; right; exists d, (-1)%Z; auto|auto].
    - exists (shift p d 1). split; [apply star_In; right; exists d, 1%Z; auto|auto]. }
  destruct X as (-> & q & Hq & Es & Ec). split; auto. exists q.
  destruct (star_col m D f p q F Hf Hp Hq) as [(I1 & E1 & C1)|[E1 (loc & H)]].
  - exfalso. pose proof (idx_range m D f _ F Hf I1). lia.
  - exists loc. tauto.
Qed.

Lemma lap_ghost_NoDup m D f p : mfacts m D -> NoDup (map (fun it => (it_f it, it_st it)) (ghost_items (lap_items m D f p))).
Proof.
  intros F. assert (N : NoDup (map (fun it => (it_f it, it_st it)) (lap_items m D f p))).
  { assert (E : map (fun it => (it_f it, it_st it)) (lap_items m D f p) = map (fun q => (f, st_of q)) (star (m_dim m) p)).
    { unfold lap_items, lap_offs, star. cbn [map it_f it_st]. f_equal. induction (zrange 0 (m_dim m)) as [|d t IH]; [reflexivity|]. cbn. rewrite IH. reflexivity. }
    rewrite E. apply FinFun.Injective_map_NoDup; [|apply star_NoDup, (mf_dim _ _ F)]. intros a b Eab. injection Eab as Eab.
    apply st_of_inj. destruct a as [[? ?] ?], b as [[? ?] ?]. cbn in *. congruence. }
  unfold ghost_items. revert N. generalize (lap_items m D f p). induction l as [|a t IH]; intros N; [constructor|]. cbn [filter].
  cbn [map] in N. inversion N as [|x y Ha Ht E]; subst. destruct (it_col a =? -1)%Z; [|auto]. cbn [map]. constructor; [|auto].
  intros Hin. apply Ha. apply in_map_iff in Hin. destruct Hin as (b & Eb & Hb). apply filter_In in Hb. rewrite <- Eb.
  apply (in_map (fun it => (it_f it, it_st it))). tauto.
Qed.

Lemma lap_HK m D r : mfacts m D -> (0 <= r < nranks D)%Z -> NoDup (map fst (flat_map row_ghosts (lap_rows m D r))).
Proof.
  intros F Hr. pose proof (mf_dim _ _ F) as Hdim.
  assert (E : map fst (flat_map row_ghosts (lap_rows m D r)) =
    flat_map (fun f => flat_map (fun p => map (fun it => (it_f it, it_st it)) (ghost_items (lap_items m D f p))) (local_points D f r)) (zrange 0 (m_dim m))).
  { unfold lap_rows. induction (zrange 0 (m_dim m)) as [|f t IH]; [reflexivity|]. cbn [flat_map]. rewrite flat_map_app_f, map_app, IH. f_equal.
    induction (local_points D f r) as [|p t' IH']; [reflexivity|]. cbn [map flat_map]. rewrite map_app, IH'. f_equal.
    unfold row_ghosts. cbn [fst snd]. rewrite map_map. reflexivity. }
  rewrite E. assert (Int : forall f p, (0 <= f < m_dim m)%Z -> In p (local_points D f r) -> interior (m_n m f) p)
    by (intros f p Hf Hp; eapply local_interior; eauto; apply (mf_dec _ _ F); auto).
  apply NoDup_flat_map; [apply zrange_NoDup| |].
  - intros f Hf. apply zrange_In in Hf. apply NoDup_flat_map; [apply box_NoDup| |].
    + intros p Hp. now apply lap_ghost_NoDup.
    + intros p p' k Hp Hp' A B. apply in_map_iff in A, B. destruct A as (it & <- & A), B as (it' & Ek & B).
      apply lap_ghost_items in A; auto. apply lap_ghost_items in B; auto.
      destruct A as (A0 & q & loc & A1 & A2 & A3 & A4 & A5 & A6), B as (B0 & q' & loc' & B1 & B2 & B3 & B4 & B5 & B6).
      injection Ek as _ Ek. rewrite A1, B1 in Ek. apply st_of_inj in Ek. subst q'.
      assert (loc' = loc) by (eapply is_ghost_inj; eauto; [lia|lia|intros; eapply sizes_pos; eauto]). subst loc'. congruence.
  - intros f f' k Hf Hf' A B. apply zrange_In in Hf, Hf'. apply in_flat_map in A, B. destruct A as (p & Hp & A), B as (p' & Hp' & B).
    apply in_map_iff in A, B. destruct A as (it & <- & A), B as (it' & Ek & B).
    apply lap_ghost_items in A; auto. apply lap_ghost_items in B; auto. destruct A as (A0 & _), B as (B0 & _). injection Ek as Ek _. congruence.
Qed.

(** The value that a star point contributes. *)
Lemma star_value m D types values h B2 x u r f p q : mfacts m D -> bc_fits m types -> (0 <= r < nranks D)%Z ->
  boundary_after m D types values (h ++ [OpVals x]) B2 -> extends m D B2 x u ->
  (0 <= f < m_dim m)%Z -> In p (local_points D f r) -> In q (star (m_dim m) p) ->
  (if (0 <=? idx m D f q)%Z then x (idx m D f q) else ghost_sum (bpts m D types values h) r f (st_of q) x) = u f q.
Proof.
  intros F Hb Hr HB Hext Hf Hp Hq. pose proof (mf_dim _ _ F) as Hdim.
  assert (Hint : interior (m_n m f) p) by (eapply local_interior; eauto; apply (mf_dec _ _ F); auto).
  assert (Hn : forall e, (0 <= e < 3)%Z -> (1 <= m_n m f e)%Z) by (intros; eapply sizes_pos; eauto).
  destruct (star_col m D f p q F Hf Hint Hq) as [(I1 & E1 & C1)|[E1 (loc & L1 & L2 & L3 & L4)]].
  - pose proof (idx_range m D f _ F Hf I1). rewrite E1. replace (0 <=? idx m D f (image (m_n m f) q))%Z with true by lia.
    destruct (idx_spec m D f _ F Hf I1) as [_ N]. destruct Hext as (X1 & X2 & X3). rewrite <- (X1 _ _ _ N).
    pose proof Hq as Hq0. apply star_In in Hq. destruct Hq as [->|(d & s & Hd & Hs & ->)]; [now rewrite image_interior by auto|].
    destruct (nb_cases m D f p d s F Hf Hint Hd Hs) as (Fr & No & [(Hi & Hor & _ & E)|(Hi & Hper & E & _)]).
    + destruct (outside (m_n m f d) (pc p d + s)) eqn:Eo.
      * symmetry. apply X2; auto.
      * f_equal. apply image_interior; auto. apply interior_pc. intros e He. rewrite pc_shift by lia. rewrite interior_pc in Hint.
        destruct (Z.eqb_spec e d) as [->|]; [unfold outside in Eo; lia|now apply Hint].
    + exfalso. assert (idx m D f (shift p d s) = (-1)%Z) by (unfold idx; now rewrite E). lia.
  - rewrite E1. cbn [Z.leb Z.compare]. eapply ghost_sum_ext; eauto. now rewrite L4.
Qed.

Lemma shift_setc p d s : shift p d s = setc p d (pc p d + s).
Proof. reflexivity. Qed.

Theorem laplacian_lemma m D types values h0 h1 x B0 B1 B2 u :
  mfacts m D -> bc_fits m types -> has_ics h0 -> periodic_min m 3 ->
  boundary_after m D types values h0 B0 -> boundary_after m D types values (h0 ++ h1) B1 ->
  boundary_after m D types values (h0 ++ h1 ++ [OpVals x]) B2 -> extends m D B2 x u ->
  exists op c, createLaplacian m D B0 = Ok op /\ correction_mult m (nranks D) op B1 = Ok c /\
    forall id f p, nthZ (packed_layout (m_dim m) D) id = Some (f, p) ->
      mat_mult (op_log op) (n_velocity m) x id + c id = laplacian_at m f u p.
Proof.
  intros F Hb Hics Hmin HB0 HB1 HB2 Hext.
  exists (op_of m D types values (lap_rows m D) h0), (vec_add_all (asm_corr (nranks D) (lap_rows m D) (bpts m D types values (h0 ++ h1)))).
  split; [|split].
  - unfold createLaplacian. apply assemble; auto. intros r Hr. now apply laplacian_rank_ok.
  - now apply correct.
  - intros id f p Hid. pose proof (nthZ_In _ _ _ Hid) as Hin.
    assert (DA : dec_all (m_dim m) D (m_n m)) by (intros g Hg; apply (mf_dec _ _ F); auto).
    pose proof (mf_dim _ _ F) as Hdim.
    assert (Hin' := Hin). apply (packed_layout_In _ _ (m_n m)) in Hin'; auto. destruct Hin' as [Hf Hp].
    destruct (idx_spec m D f p F Hf Hp) as [_ N].
    assert (id = idx m D f p) by (eapply nthZ_NoDup_inj; eauto; eapply packed_layout_NoDup; eauto). subst id.
    destruct (owner_exists D (m_n m f) f p (DA f Hf) Hp) as (r & Hr & Hpl).
    assert (Hrow : In (idx m D f p, lap_items m D f p) (lap_rows m D r)).
    { unfold lap_rows. apply in_flat_map. exists f. split; [now apply zrange_In|]. apply in_map_iff. exists p. auto. }
    rewrite (op_row m D types values (lap_rows m D) h0 h1 F Hb Hics x r _ _ (vrows_NoDup m D (lap_items m D) F)
      ltac:(intros; now apply (lap_HI m D r0)) ltac:(intros; now apply lap_HK) Hr Hrow).
    assert (SV : forall q, In q (star (m_dim m) p) ->
      (if (0 <=? idx m D f q)%Z then x (idx m D f q) else ghost_sum (bpts m D types values (h0 ++ h1)) r f (st_of q) x) = u f q).
    { intros q Hq. eapply star_value; eauto. rewrite <- app_assoc. exact HB2. }
    unfold lap_items. cbn [sumR it_val it_col it_f it_st]. rewrite (SV p) by now left.
    unfold lap_offs at 2. rewrite sumR_flat_map. cbn [sumR it_val it_col it_f it_st].
    rewrite (sumR_ext _ (fun d => lapm m f p d * u f (shift p d (-1)) + lapp m f p d * u f (shift p d 1))).
    2: { intros d Hd. apply zrange_In in Hd. rewrite (SV (shift p d (-1))) by (apply star_In; right; exists d, (-1)%Z; auto). rewrite (SV (shift p d 1)) by (apply star_In; right; exists d, 1%Z; auto). lra. }
    assert (Eself : sumR it_val (lap_offs m D f p) = sumR (fun d => lapm m f p d + lapp m f p d) (zrange 0 (m_dim m))).
    { unfold lap_offs. rewrite sumR_flat_map. apply sumR_ext. intros d _. cbn. lra. }
    rewrite Eself. rewrite <- sumR_opp, <- sumR_scal_r, <- sumR_plus. unfold laplacian_at, zsum. apply sumR_ext.
    intros d Hd. apply zrange_In in Hd. unfold second_difference, lapm, lapp. rewrite !shift_setc.
    replace (pc p d + -1)%Z with (pc p d - 1)%Z by lia.
    assert (Esame : setc p d (pc p d) = p).
    { apply pt_ext. intros e He. rewrite pc_setc by lia. destruct (Z.eqb_spec e d) as [->|]; reflexivity. }
    rewrite Esame. rewrite interior_pc in Hp. specialize (Hp d ltac:(lia)).
    pose proof (mf_incr _ _ F f d (pc p d - 1) (pc p d) Hf Hd ltac:(lia) ltac:(lia) ltac:(lia)).
    pose proof (mf_incr _ _ F f d (pc p d) (pc p d + 1) Hf Hd ltac:(lia) ltac:(lia) ltac:(lia)).
    destruct (mf_wid _ _ F f d (pc p d) Hf Hd ltac:(lia)) as [_ W]. field. repeat split; lra.
Qed.
