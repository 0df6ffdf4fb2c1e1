From Coq Require Import Permutation ZifyBool.
From Verif Require Import Prelude ZSum RSum TypesModel GridModel GridSpec GridProof MeshProof
  IndexModel IndexSpec IndexProof BoundaryModel BoundarySpec BoundaryProof OperatorModel.
Local Open Scope R_scope.

Lemma NoDup_app_inv {A} (l1 l2 : list A) : NoDup (l1 ++ l2) ->
  NoDup l1 /\ NoDup l2 /\ forall x, In x l1 -> ~ In x l2.
Proof.
  induction l1 as [|a t IH]; intros H; [split; [constructor|split; [exact H|intros x []]]|].
  cbn in H. inversion H as [|x0 l0 N H' E1]. destruct (IH H') as (A1 & A2 & A3). split; [|split].
  - constructor; auto. intros X. apply N. apply in_app_iff. auto.
  - exact A2.
  - intros y [E|Hx]; [|auto]. subst y. intros X. apply N. apply in_app_iff. auto.
Qed.

(** * Matrix logs *)
Definition matches (r c : Z) (e : mev) : bool := (ev_row e =? r)%Z && (ev_col e =? c)%Z.
Definition is_add (e : mev) : Prop := ev_mode e = ADD_VALUES.
Definition is_ins (e : mev) : Prop := ev_mode e = INSERT_VALUES.

Lemma fold_adds r c adds : Forall is_add adds -> forall acc,
  fold_left (apply_ev r c) adds acc = acc + sumR (fun e => if matches r c e then ev_val e else 0) adds.
Proof.
  induction 1 as [|e t He _ IH]; intros acc; cbn [fold_left sumR]; [lra|]. rewrite IH.
  unfold apply_ev, matches. unfold is_add in He. rewrite He. destruct (_ && _); lra.
Qed.

Lemma fold_nomatch r c l : filter (matches r c) l = [] -> forall acc, fold_left (apply_ev r c) l acc = acc.
Proof.
  induction l as [|e t IH]; intros H acc; [reflexivity|]. cbn [fold_left filter] in *.
  unfold apply_ev at 2. unfold matches in *. destruct (_ && _); [discriminate|]. auto.
Qed.
Lemma sum_nomatch r c l : filter (matches r c) l = [] -> sumR (fun e => if matches r c e then ev_val e else 0) l = 0.
Proof.
  induction l as [|e t IH]; intros H; [reflexivity|]. cbn [sumR filter] in *.
  destruct (matches r c e); [discriminate|]. rewrite IH by auto. lra.
Qed.

Lemma fold_ins r c l : Forall is_ins l -> (length (filter (matches r c) l) <= 1)%nat ->
  fold_left (apply_ev r c) l 0 = sumR (fun e => if matches r c e then ev_val e else 0) l.
Proof.
  induction 1 as [|e t He _ IH]; intros H; [reflexivity|]. cbn [fold_left sumR filter] in *.
  destruct (matches r c e) eqn:M.
  - cbn [length] in H. assert (E : filter (matches r c) t = []) by (destruct (filter (matches r c) t); [reflexivity|cbn in H; lia]).
    rewrite fold_nomatch, sum_nomatch by auto. unfold apply_ev. unfold matches in M. rewrite M.
    unfold is_ins in He. rewrite He. lra.
  - unfold apply_ev at 2. unfold matches in M. rewrite M. rewrite IH by auto. lra.
Qed.

Lemma entry_sum r c ins adds : Forall is_ins ins -> Forall is_add adds ->
  (length (filter (matches r c) ins) <= 1)%nat ->
  entry (ins ++ adds) r c = sumR (fun e => if matches r c e then ev_val e else 0) (ins ++ adds).
Proof.
  intros Hi Ha H. unfold entry. rewrite fold_left_app, sumR_app. rewrite fold_adds by auto. rewrite fold_ins by auto. reflexivity.
Qed.

Lemma mat_mult_sum ins adds N x R : Forall is_ins ins -> Forall is_add adds ->
  (forall c, (0 <= c < N)%Z -> (length (filter (matches R c) ins) <= 1)%nat) ->
  (forall e, In e (ins ++ adds) -> ev_row e = R -> ev_col e = (-1)%Z \/ (0 <= ev_col e < N)%Z) ->
  mat_mult (ins ++ adds) N x R
  = sumR (fun e => if (ev_row e =? R)%Z && (0 <=? ev_col e)%Z then ev_val e * x (ev_col e) else 0) (ins ++ adds).
Proof.
  intros Hi Ha H1 H2. unfold mat_mult, zsum.
  rewrite (sumR_ext _ (fun c => sumR (fun e => if matches R c e then ev_val e * x c else 0) (ins ++ adds))).
  2: { intros c Hc. apply zrange_In in Hc. rewrite entry_sum by auto. rewrite <- sumR_scal_r. apply sumR_ext.
       intros e _. destruct (matches R c e); lra. }
  rewrite sumR_swap. apply sumR_ext. intros e He. unfold matches.
  destruct (Z.eqb_spec (ev_row e) R) as [E|E]; cbn [andb]; [|now apply sumR_zero].
  destruct (H2 e He E) as [Hc|Hc].
  - rewrite Hc. replace (0 <=? -1)%Z with false by lia. apply sumR_zero. intros c Hc'. apply zrange_In in Hc'.
    replace (-1 =? c)%Z with false by lia. reflexivity.
  - replace (0 <=? ev_col e)%Z with true by lia.
    rewrite (sumR_single _ _ (ev_col e)); [now rewrite Z.eqb_refl|apply zrange_NoDup|now apply zrange_In|].
    intros c _ Hne. replace (ev_col e =? c)%Z with false by lia. reflexivity.
Qed.

(** * Rows *)
Record item := mkIt { it_f : Z; it_st : stencil; it_col : Z; it_val : R }.
Definition rowspec : Type := (Z * list item)%type.
Definition row_events (ri : rowspec) : list mev :=
  map (fun it => mkEv (fst ri) (it_col it) (it_val it) INSERT_VALUES) (snd ri).
Definition ghost_items (items : list item) : list item := filter (fun it => (it_col it =? -1)%Z) items.
Definition row_ghosts (ri : rowspec) : list (Z * stencil * (Z * R)) :=
  map (fun it => (it_f it, it_st it, (fst ri, it_val it))) (ghost_items (snd ri)).
Definition put_ghost (ms : modmap) (g : Z * stencil * (Z * R)) : modmap :=
  mod_put ms (fst (fst g)) (snd (fst g)) (fst (snd g)) (snd (snd g)).
Definition rows_mods (rows : list rowspec) : modmap := fold_left put_ghost (flat_map row_ghosts rows) no_mods.
Definition rows_log (rows : list rowspec) : list mev := flat_map row_events rows.
Definition key_eqb (a b : Z * stencil) : bool := (fst a =? fst b)%Z && stencil_eqb (snd a) (snd b).

Lemma key_eqb_spec a b : key_eqb a b = true <-> a = b.
Proof.
  destruct a as [f s], b as [g t]. unfold key_eqb. cbn [fst snd]. rewrite andb_true_iff, stencil_eqb_spec, Z.eqb_eq.
  split; [intros [-> ->]; reflexivity|intros E; injection E as -> ->; auto].
Qed.
Lemma key_eqb_refl a : key_eqb a a = true.
Proof. now apply key_eqb_spec. Qed.
Lemma key_eqb_neq a b : a <> b -> key_eqb a b = false.
Proof. intros H. destruct (key_eqb a b) eqn:E; [apply key_eqb_spec in E; contradiction|reflexivity]. Qed.

Lemma mget_mput {T} (l : list (stencil * T)) s v s' :
  mget (mput l s v) s' = if stencil_eqb s s' then Some v else mget l s'.
Proof.
  induction l as [|[k w] t IH]; cbn [mput mget].
  - reflexivity.
  - destruct (stencil_eqb k s) eqn:E; cbn [mget].
    + apply stencil_eqb_spec in E. subst k. destruct (stencil_eqb s s'); reflexivity.
    + rewrite IH. destruct (stencil_eqb k s') eqn:E1, (stencil_eqb s s') eqn:E2; auto.
      apply stencil_eqb_spec in E1, E2. subst. assert (stencil_eqb s' s' = true) by now apply stencil_eqb_spec. congruence.
Qed.

Lemma mod_get_put ms f s row v f' s' :
  mod_get (mod_put ms f s row v) f' s' = if key_eqb (f, s) (f', s') then (row, v) else mod_get ms f' s'.
Proof.
  unfold mod_get, mod_put, key_eqb. cbn [fst snd]. rewrite (Z.eqb_sym f f').
  destruct (f' =? f)%Z; cbn [andb]; [|reflexivity].
  rewrite mget_mput. destruct (stencil_eqb s s'); reflexivity.
Qed.

Lemma mods_notin L : forall ms f s, ~ In (f, s) (map fst L) -> mod_get (fold_left put_ghost L ms) f s = mod_get ms f s.
Proof.
  induction L as [|[[g t] [row v]] L IH]; intros ms f s H; [reflexivity|]. cbn [fold_left]. rewrite IH by (cbn in H; tauto).
  unfold put_ghost. cbn [fst snd]. rewrite mod_get_put. rewrite key_eqb_neq; [reflexivity|]. intros E. apply H. left. exact E.
Qed.
Lemma mods_in L : NoDup (map fst L) -> forall ms f s rc, In (f, s, rc) L -> mod_get (fold_left put_ghost L ms) f s = rc.
Proof.
  induction L as [|[[g t] [row v]] L IH]; intros Hnd ms f s rc Hin; [contradiction|]. cbn [fold_left].
  cbn [map] in Hnd. inversion Hnd; subst. destruct Hin as [E|Hin]; [|auto].
  injection E as -> -> <-. rewrite mods_notin by exact H1. unfold put_ghost. cbn [fst snd]. rewrite mod_get_put.
  rewrite key_eqb_refl. reflexivity.
Qed.

Lemma mods_default f s : mod_get no_mods f s = (0%Z, 0).
Proof. reflexivity. Qed.

(** Sum over the boundary points of a rank, seen from the ghost items. *)
Lemma points_sum (L : list (Z * stencil * (Z * R))) (pts : list (Z * (stencil * ginfo))) (g : ginfo -> R) (Row : Z) :
  NoDup (map fst L) ->
  sumR (fun fkp => let '(f, (key, p)) := fkp in
     let '(row, coeff) := mod_get (fold_left put_ghost L no_mods) f key in
     if (row =? Row)%Z then coeff * g p else 0) pts
  = sumR (fun e => if (fst (snd e) =? Row)%Z
                   then snd (snd e) * sumR (fun fkp => if key_eqb (fst e) (fst fkp, fst (snd fkp)) then g (snd (snd fkp)) else 0) pts
                   else 0) L.
Proof.
  intros Hnd.
  transitivity (sumR (fun fkp => sumR (fun e => if key_eqb (fst e) (fst fkp, fst (snd fkp)) then
     (if (fst (snd e) =? Row)%Z then snd (snd e) * g (snd (snd fkp)) else 0) else 0) L) pts).
  - apply sumR_ext. intros [f [s p]] _. cbn [fst snd].
    destruct (in_dec (fun a b => match Bool.bool_dec (key_eqb a b) true with
       left e => left (proj1 (key_eqb_spec a b) e) | right e => right (fun h => e (proj2 (key_eqb_spec a b) h)) end) (f, s) (map fst L)) as [Hin|Hin].
    + apply in_map_iff in Hin. destruct Hin as ([[f0 s0] rc] & E & Hin). cbn in E. injection E as -> ->.
      rewrite (mods_in L Hnd _ _ _ _ Hin). rewrite (sumR_single _ _ (f, s, rc)).
      * cbn [fst snd]. rewrite key_eqb_refl. destruct rc; reflexivity.
      * eapply NoDup_map_inv; eauto.
      * exact Hin.
      * intros y Hy Hne. destruct (key_eqb (fst y) (f, s)) eqn:E; [|reflexivity]. exfalso. apply Hne.
        apply key_eqb_spec in E. destruct y as [k rc']. cbn in E. subst k.
        pose proof (mods_in L Hnd no_mods _ _ _ Hin) as A. pose proof (mods_in L Hnd no_mods _ _ _ Hy) as B. congruence.
    + rewrite mods_notin by exact Hin. rewrite mods_default. rewrite sumR_zero; [destruct (_ =? _)%Z; lra|].
      intros e He. destruct (key_eqb (fst e) (f, s)) eqn:E; [|reflexivity]. apply key_eqb_spec in E. exfalso. apply Hin.
      rewrite <- E. now apply in_map.
  - rewrite sumR_swap. apply sumR_ext. intros [k [row v]] _. cbn [fst snd].
    destruct (row =? Row)%Z.
    + rewrite <- sumR_scal. apply sumR_ext. intros fkp _. destruct (key_eqb _ _); lra.
    + apply sumR_zero. intros fkp _. destruct (key_eqb _ _); reflexivity.
Qed.

(** * Assembly of all ranks *)
Section Assembly.
Variable nr : Z.                                 (* number of ranks *)
Variable N : Z.                                  (* number of columns *)
Variable rows : Z -> list rowspec.               (* rows set by each rank *)
Variable pts0 pts1 : Z -> list (Z * (stencil * ginfo)).  (* boundary points: at assembly, at correction *)

Definition all_rows : list rowspec := flat_map rows (zrange 0 nr).
Definition asm_ins : list mev := flat_map (fun r => rows_log (rows r)) (zrange 0 nr).
Definition asm_adds : list mev := flat_map (fun r => map (fun fkp => let '(f, (key, p)) := fkp in
   let '(row, coeff) := mod_get (rows_mods (rows r)) f key in mkEv row (gi_tid p) (coeff * gi_a0 p) ADD_VALUES) (pts0 r)) (zrange 0 nr).
Definition asm_corr : list (Z * R) := flat_map (fun r => map (fun fkp => let '(f, (key, p)) := fkp in
   let '(row, coeff) := mod_get (rows_mods (rows r)) f key in (row, coeff * gi_a1 p)) (pts1 r)) (zrange 0 nr).

Definition same_point (a b : Z * (stencil * ginfo)) : Prop :=
  fst a = fst b /\ fst (snd a) = fst (snd b) /\ gi_tid (snd (snd a)) = gi_tid (snd (snd b)) /\
  gi_a0 (snd (snd a)) = gi_a0 (snd (snd b)).

Hypothesis HR : NoDup (map fst all_rows).
Hypothesis HI : forall r ri, (0 <= r < nr)%Z -> In ri (rows r) ->
  NoDup (filter (fun c => (0 <=? c)%Z) (map it_col (snd ri))) /\
  (forall it, In it (snd ri) -> it_col it = (-1)%Z \/ (0 <= it_col it < N)%Z).
Hypothesis HK : forall r, (0 <= r < nr)%Z -> NoDup (map fst (flat_map row_ghosts (rows r))).
Hypothesis HT : forall r kp, (0 <= r < nr)%Z -> In kp (pts0 r) -> (0 <= gi_tid (snd (snd kp)) < N)%Z.
Hypothesis HS : forall r, (0 <= r < nr)%Z -> Forall2 same_point (pts0 r) (pts1 r).

Definition ghost_sum (r f : Z) (s : stencil) (x : Z -> R) : R :=
  sumR (fun fkp => if key_eqb (f, s) (fst fkp, fst (snd fkp))
                   then gi_a0 (snd (snd fkp)) * x (gi_tid (snd (snd fkp))) + gi_a1 (snd (snd fkp)) else 0) (pts1 r).

Lemma asm_ins_all : asm_ins = flat_map row_events all_rows.
Proof. unfold asm_ins, rows_log, all_rows. induction (zrange 0 nr) as [|a t IH]; [reflexivity|]. cbn. rewrite IH. now rewrite flat_map_app_f. Qed.

Lemma filter_rows (l : list rowspec) R items : NoDup (map fst l) -> In (R, items) l ->
  filter (fun e => (ev_row e =? R)%Z) (flat_map row_events l) = row_events (R, items).
Proof.
  assert (No : forall l R, ~ In R (map fst l) -> filter (fun e => (ev_row e =? R)%Z) (flat_map row_events l) = []).
  { clear. induction l as [|[R0 it0] t IH]; intros R H; [reflexivity|]. cbn [flat_map]. rewrite filter_app, IH by (cbn in H; tauto).
    rewrite app_nil_r. unfold row_events. cbn [fst snd]. assert (Hne : R0 <> R) by (cbn in H; tauto). clear - Hne.
    induction it0 as [|i t0 IH0]; [reflexivity|]. cbn. replace (R0 =? R)%Z with false by lia. apply IH0. }
  induction l as [|[R0 it0] t IH]; intros Hnd Hin; [contradiction|]. cbn [flat_map]. rewrite filter_app.
  cbn [map fst] in Hnd. inversion Hnd; subst. destruct Hin as [E|Hin].
  - injection E as -> ->. rewrite No by auto. rewrite app_nil_r. unfold row_events. cbn [fst snd].
    clear. induction items as [|i t0 IH0]; [reflexivity|]. cbn. rewrite Z.eqb_refl. f_equal. apply IH0.
  - rewrite IH by auto. assert (R0 <> R). { intros ->. apply H1. apply in_map_iff. exists (R, items). auto. }
    replace (filter _ (row_events (R0, it0))) with (@nil mev); [reflexivity|].
    unfold row_events. cbn [fst snd]. symmetry. clear - H. induction it0 as [|i t0 IH0]; [reflexivity|]. cbn.
    replace (R0 =? R)%Z with false by lia. apply IH0.
Qed.

Lemma filter_filter {A} (p q : A -> bool) l : filter p (filter q l) = filter (fun x => q x && p x) l.
Proof.
  induction l as [|x t IH]; [reflexivity|]. cbn. destruct (q x); cbn; [destruct (p x)|]; rewrite ?IH; reflexivity.
Qed.

Lemma nodup_eqb_le c l : NoDup (filter (fun c => (0 <=? c)%Z) l) -> (0 <= c)%Z ->
  (length (filter (fun d => (d =? c)%Z) l) <= 1)%nat.
Proof.
  intros Hnd Hc. induction l as [|d t IH]; [cbn; lia|]. cbn [filter] in *. destruct (Z.eqb_spec d c) as [-> |Hne].
  - replace (0 <=? c)%Z with true in Hnd by lia. inversion Hnd; subst. cbn [length].
    replace (filter (fun d => (d =? c)%Z) t) with (@nil Z); [cbn; lia|]. symmetry.
    assert (H' : ~ In c t). { intros Hin. apply H1. apply filter_In. split; auto. lia. }
    clear - H'. induction t as [|e t IH]; [reflexivity|]. cbn in *. replace (e =? c)%Z with false by lia. apply IH. tauto.
  - apply IH. destruct (0 <=? d)%Z; [inversion Hnd; auto|auto].
Qed.

Lemma row_sum_ins x r R items : (0 <= r < nr)%Z -> In (R, items) (rows r) ->
  sumR (fun e => if (ev_row e =? R)%Z && (0 <=? ev_col e)%Z then ev_val e * x (ev_col e) else 0) asm_ins
  = sumR (fun it => if (0 <=? it_col it)%Z then it_val it * x (it_col it) else 0) items.
Proof.
  intros Hr Hin. rewrite asm_ins_all.
  assert (F : forall (g : mev -> RbaseSymbolsImpl.R) l, sumR (fun e => if (ev_row e =? R)%Z && (0 <=? ev_col e)%Z then g e else 0) l =
    sumR (fun e => if (0 <=? ev_col e)%Z then g e else 0) (filter (fun e => (ev_row e =? R)%Z) l)).
  { intros g l. induction l as [|e t IH]; [reflexivity|]. cbn [sumR filter]. destruct (ev_row e =? R)%Z; cbn [andb sumR]; rewrite IH; lra. }
  rewrite F. rewrite (filter_rows all_rows R items HR).
  - unfold row_events. rewrite sumR_map. reflexivity.
  - unfold all_rows. apply in_flat_map. exists r. split; [now apply zrange_In|auto].
Qed.

Lemma row_unique r r' R items items' : (0 <= r < nr)%Z -> (0 <= r' < nr)%Z -> In (R, items) (rows r) -> In (R, items') (rows r') -> r = r'.
Proof.
  intros Hr Hr' H H'. unfold all_rows in HR.
  assert (G : forall l, NoDup l -> NoDup (map fst (flat_map rows l)) -> In r l -> In r' l -> r = r').
  { clear - H H'. induction l as [|a t IH]; intros Hl Hnd Ha Hb; [contradiction|]. cbn [flat_map] in Hnd. rewrite map_app in Hnd.
    assert (X : forall q its, In (R, its) (rows q) -> In R (map fst (rows q))) by (intros q its Hq; apply in_map_iff; exists (R, its); auto).
    inversion Hl; subst.
    assert (Disj : forall z, In z (map fst (rows a)) -> ~ In z (map fst (flat_map rows t))).
    { apply NoDup_app_inv in Hnd. apply Hnd. }
    assert (Rt : forall q its, In q t -> In (R, its) (rows q) -> In R (map fst (flat_map rows t))).
    { intros q its Hq Hi. apply in_map_iff. exists (R, its). split; auto. apply in_flat_map. eauto. }
    destruct Ha as [->|Ha], Hb as [->|Hb]; auto.
    - exfalso. eapply (Disj R); [eapply X; eauto|eapply Rt; eauto].
    - exfalso. eapply (Disj R); [eapply X; eauto|eapply Rt; eauto].
    - apply IH; auto. apply NoDup_app_inv in Hnd. apply Hnd. }
  apply (G (zrange 0 nr)); auto; [apply zrange_NoDup|now apply zrange_In|now apply zrange_In].
Qed.

Lemma ghosts_sum_row (g : Z * stencil -> R) r R items : (0 <= r < nr)%Z -> In (R, items) (rows r) ->
  forall r', (0 <= r' < nr)%Z ->
  sumR (fun e => if (fst (snd e) =? R)%Z then snd (snd e) * g (fst e) else 0) (flat_map row_ghosts (rows r'))
  = if (r' =? r)%Z then sumR (fun it => if (it_col it =? -1)%Z then it_val it * g (it_f it, it_st it) else 0) items else 0.
Proof.
  intros Hr Hin r' Hr'. rewrite sumR_flat_map. unfold row_ghosts.
  rewrite (sumR_ext _ (fun ri : rowspec => if (fst ri =? R)%Z then
     sumR (fun it => if (it_col it =? -1)%Z then it_val it * g (it_f it, it_st it) else 0) (snd ri) else 0)).
  2: { intros [R' its] _. cbn [fst snd]. rewrite sumR_map. cbn [fst snd]. destruct (R' =? R)%Z.
       - induction its as [|i t IH]; [reflexivity|]. unfold ghost_items in *. cbn [filter sumR]. destruct (it_col i =? -1)%Z; cbn [sumR]; rewrite IH; lra.
       - now apply sumR_zero. }
  destruct (Z.eqb_spec r' r) as [-> |Hne].
  - rewrite (sumR_single _ _ (R, items)).
    + cbn [fst snd]. now rewrite Z.eqb_refl.
    + assert (Hn : NoDup (map fst (rows r))).
      { unfold all_rows in HR. revert HR. assert (In r (zrange 0 nr)) by now apply zrange_In. revert H. generalize (zrange 0 nr).
        induction l as [|a t IH]; intros Hi Hnd; [contradiction|]. cbn [flat_map] in Hnd. rewrite map_app in Hnd.
        apply NoDup_app_inv in Hnd. destruct Hnd as (N1 & N2 & _). destruct Hi as [->|Hi]; auto. }
      eapply NoDup_map_inv; eauto.
    + exact Hin.
    + intros [R' its] Hi Hne'. cbn [fst snd]. destruct (Z.eqb_spec R' R) as [-> |]; [|reflexivity]. exfalso. apply Hne'.
      assert (E := filter_rows).
      assert (A : In (R, items) all_rows) by (apply in_flat_map; exists r; split; [now apply zrange_In|auto]).
      assert (B : In (R, its) all_rows) by (apply in_flat_map; exists r; split; [now apply zrange_In|auto]).
      clear - HR A B. induction all_rows as [|y s IHs]; [contradiction|]. cbn in HR. inversion HR; subst.
      destruct A as [->|A], B as [B|B]; auto; try congruence.
      * exfalso. apply H1. apply in_map_iff. exists (R, its). auto.
      * exfalso. subst y. apply H1. apply in_map_iff. exists (R, items). auto.
  - apply sumR_zero. intros [R' its] Hi. cbn [fst snd]. destruct (Z.eqb_spec R' R) as [-> |]; [|reflexivity]. exfalso. apply Hne.
    eapply row_unique; eauto.
Qed.

Theorem assembly_row x r R items : (0 <= r < nr)%Z -> In (R, items) (rows r) ->
  mat_mult (asm_ins ++ asm_adds) N x R + vec_add_all asm_corr R
  = sumR (fun it => it_val it * (if (0 <=? it_col it)%Z then x (it_col it) else ghost_sum r (it_f it) (it_st it) x)) items.
Proof.
  intros Hr Hin.
  assert (Hall : In (R, items) all_rows) by (apply in_flat_map; exists r; split; [now apply zrange_In|auto]).
  rewrite mat_mult_sum.
  - rewrite sumR_app. rewrite (row_sum_ins x r R items Hr Hin).
    assert (A : sumR (fun e => if (ev_row e =? R)%Z && (0 <=? ev_col e)%Z then ev_val e * x (ev_col e) else 0) asm_adds
              + vec_add_all asm_corr R
              = sumR (fun it => if (it_col it =? -1)%Z then it_val it * ghost_sum r (it_f it) (it_st it) x else 0) items).
    { unfold vec_add_all, asm_adds, asm_corr. rewrite !sumR_flat_map. rewrite <- sumR_plus.
      rewrite (sumR_ext _ (fun r' => sumR (fun e => if (fst (snd e) =? R)%Z then snd (snd e) *
          ghost_sum r' (fst (fst e)) (snd (fst e)) x else 0) (flat_map row_ghosts (rows r')))).
      2: { intros r' Hr'. apply zrange_In in Hr'. rewrite !sumR_map.
           rewrite (sumR_ext (fun fkp => if (ev_row (let '(f, (key, p)) := fkp in let '(row, coeff) := mod_get (rows_mods (rows r')) f key in mkEv row (gi_tid p) (coeff * gi_a0 p) ADD_VALUES) =? R)%Z && _ then _ else _)
             (fun fkp => let '(f, (key, p)) := fkp in let '(row, coeff) := mod_get (rows_mods (rows r')) f key in
                if (row =? R)%Z then coeff * (gi_a0 p * x (gi_tid p)) else 0)).
           2: { intros [f [key p]] Hp. pose proof (HT r' _ Hr' Hp) as Ht. cbn [fst snd] in Ht.
                destruct (mod_get _ f key) as [row coeff]. cbn [ev_row ev_col ev_val].
                destruct (row =? R)%Z; cbn [andb]; [|reflexivity]. replace (0 <=? gi_tid p)%Z with true by lia. lra. }
           assert (Sw : sumR (fun fkp => let '(f, (key, p)) := fkp in let '(row, coeff) := mod_get (rows_mods (rows r')) f key in
                if (row =? R)%Z then coeff * (gi_a0 p * x (gi_tid p)) else 0) (pts0 r') =
             sumR (fun fkp => let '(f, (key, p)) := fkp in let '(row, coeff) := mod_get (rows_mods (rows r')) f key in
                if (row =? R)%Z then coeff * (gi_a0 p * x (gi_tid p)) else 0) (pts1 r')).
           { pose proof (HS r' Hr') as FF. induction FF as [|[f [s p]] [f' [s' p']] l l' (E1 & E2 & E3 & E4) _ IH]; [reflexivity|].
             cbn [fst snd] in *. subst f' s'. cbn [sumR]. rewrite IH, E3, E4. reflexivity. }
           rewrite Sw. rewrite <- sumR_plus.
           rewrite (sumR_ext _ (fun fkp => let '(f, (key, p)) := fkp in let '(row, coeff) := mod_get (rows_mods (rows r')) f key in
                if (row =? R)%Z then coeff * (gi_a0 p * x (gi_tid p) + gi_a1 p) else 0)).
           2: { intros [f [key p]] _. destruct (mod_get _ f key) as [row coeff]. cbn [fst snd]. destruct (row =? R)%Z; lra. }
           unfold rows_mods. rewrite (points_sum _ (pts1 r') (fun p => gi_a0 p * x (gi_tid p) + gi_a1 p) R (HK r' Hr')).
           apply sumR_ext. intros [[f s] [row v]] _. reflexivity. }
      rewrite (sumR_ext _ (fun r' => if (r' =? r)%Z then sumR (fun it => if (it_col it =? -1)%Z then it_val it * ghost_sum r' (it_f it) (it_st it) x else 0) items else 0)).
      2: { intros r' Hr'. apply zrange_In in Hr'.
           rewrite (ghosts_sum_row (fun k => ghost_sum r' (fst k) (snd k) x) r R items Hr Hin r' Hr'). reflexivity. }
      rewrite (sumR_single _ _ r); [now rewrite Z.eqb_refl|apply zrange_NoDup|now apply zrange_In|].
      intros y _ Hne. replace (y =? r)%Z with false by lia. reflexivity. }
    rewrite Rplus_assoc. rewrite A. rewrite <- sumR_plus. apply sumR_ext. intros it Hit.
    destruct (HI r _ Hr Hin) as [_ Hc]. specialize (Hc it Hit).
    destruct Hc as [->|Hc]; [cbn; lra|]. replace (0 <=? it_col it)%Z with true by lia. replace (it_col it =? -1)%Z with false by lia. lra.
  - unfold asm_ins, rows_log, row_events. apply Forall_forall. intros e He. apply in_flat_map in He. destruct He as (r' & _ & He).
    apply in_flat_map in He. destruct He as (ri & _ & He). apply in_map_iff in He. destruct He as (it & <- & _). reflexivity.
  - unfold asm_adds. apply Forall_forall. intros e He. apply in_flat_map in He. destruct He as (r' & _ & He).
    apply in_map_iff in He. destruct He as ([f [key p]] & <- & _). destruct (mod_get _ f key). reflexivity.
  - intros c Hc. rewrite asm_ins_all.
    assert (E : filter (matches R c) (flat_map row_events all_rows) = filter (fun e => (ev_col e =? c)%Z) (row_events (R, items))).
    { rewrite <- (filter_rows all_rows R items HR Hall). rewrite filter_filter. reflexivity. }
    rewrite E. destruct (HI r _ Hr Hin) as [Hnd _]. cbn [snd] in Hnd.
    pose proof (nodup_eqb_le c _ Hnd ltac:(lia)) as Hle.
    replace (length (filter (fun e => (ev_col e =? c)%Z) (row_events (R, items)))) with
      (length (filter (fun d => (d =? c)%Z) (map it_col items))); [exact Hle|].
    clear. unfold row_events. cbn [fst snd]. induction items as [|i t IH]; [reflexivity|]. cbn. destruct (it_col i =? c)%Z; cbn; rewrite IH; reflexivity.
  - intros e He _. apply in_app_iff in He. destruct He as [He|He].
    + unfold asm_ins, rows_log, row_events in He. apply in_flat_map in He. destruct He as (r' & Hr' & He). apply zrange_In in Hr'.
      apply in_flat_map in He. destruct He as (ri & Hri & He). apply in_map_iff in He. destruct He as (it & <- & Hit). cbn.
      destruct (HI r' ri Hr' Hri) as [_ Hc]. auto.
    + unfold asm_adds in He. apply in_flat_map in He. destruct He as (r' & Hr' & He). apply zrange_In in Hr'.
      apply in_map_iff in He. destruct He as ([f [key p]] & <- & Hp). destruct (mod_get _ f key). cbn. right.
      apply (HT r' _ Hr' Hp).
Qed.
End Assembly.
