From Coq Require Import String.
From Coq Require Import ZifyBool.
From Verif Require Import Prelude RSum TypesModel GridModel GridSpec.
Local Open Scope R_scope.

(** * Widths produced by the parser *)

Lemma geom_length n x r : length (geom n x r) = n.
Proof. revert x. induction n; intros; simpl; auto. Qed.

Lemma geom_total n x r : (r - 1) * total (geom n x r) = x * (r ^ n - 1).
Proof.
  unfold total. revert x. induction n as [|n IH]; intros x; simpl; [lra|].
  rewrite Rmult_plus_distr_l, IH. ring.
Qed.

Lemma geom_positive n x r : 0 < x -> 0 < r -> positive (geom n x r).
Proof.
  intros Hx Hr. revert x Hx. induction n as [|n IH]; intros x Hx; simpl; constructor; auto.
  apply IH. now apply Rmult_lt_0_compat.
Qed.

Lemma geom_geometric n x r : geometric r (geom n x r).
Proof.
  revert x. induction n as [|n IH]; intros x i a b Ha Hb.
  - simpl in Ha. apply nthZ_Some_range in Ha. unfold lenZ in Ha. simpl in Ha. lia.
  - simpl in *. pose proof (nthZ_Some_range _ _ _ Ha) as Hr.
    rewrite nthZ_cons_pos in Hb by lia.
    destruct (Z.eq_dec i 0) as [->|Hi].
    + rewrite nthZ_cons_0 in Ha. injection Ha as <-.
      destruct n as [|n]; simpl in Hb.
      * apply nthZ_Some_range in Hb. unfold lenZ in Hb. simpl in Hb. lia.
      * replace (0 + 1 - 1)%Z with 0%Z in Hb by lia. rewrite nthZ_cons_0 in Hb. congruence.
    + rewrite nthZ_cons_pos in Ha by lia. eapply IH; [exact Ha|].
      now replace (i - 1 + 1)%Z with (i + 1 - 1)%Z by lia.
Qed.

Lemma pow_ne_1 r n : 0 < r -> r <> 1 -> (0 < n)%nat -> r ^ n <> 1.
Proof.
  intros Hr Hne Hn.
  assert (Hup : forall a, 1 < a -> forall k, (0 < k)%nat -> 1 < a ^ k).
  { intros a Ha k. induction k as [|k IH]; intros Hk; [lia|]. simpl.
    destruct k as [|k]; [simpl; lra|]. assert (1 < a ^ S k) by (apply IH; lia). nra. }
  destruct (Rlt_le_dec 1 r) as [H|H].
  - assert (1 < r ^ n) by (apply Hup; auto). lra.
  - assert (Hinv : 1 < / r) by (rewrite <- Rinv_1; apply Rinv_lt_contravar; lra).
    assert (Hp : 1 < (/ r) ^ n) by (apply Hup; auto).
    intros E. rewrite pow_inv in Hp. rewrite E in Hp. rewrite Rinv_1 in Hp. lra.
Qed.

Lemma pow_sign r n : 0 < r -> r <> 1 -> (0 < n)%nat -> 0 < (r - 1) / (r ^ n - 1).
Proof.
  intros Hr Hne Hn.
  assert (Hup : forall a, 1 < a -> forall k, (0 < k)%nat -> 1 < a ^ k).
  { intros a Ha k. induction k as [|k IH]; intros Hk; [lia|]. simpl.
    destruct k as [|k]; [simpl; lra|]. assert (1 < a ^ S k) by (apply IH; lia). nra. }
  destruct (Rlt_le_dec 1 r) as [H|H].
  - assert (1 < r ^ n) by (apply Hup; auto). apply Rdiv_lt_0_compat; lra.
  - assert (Hinv : 1 < / r) by (rewrite <- Rinv_1; apply Rinv_lt_contravar; lra).
    assert (Hp : 1 < (/ r) ^ n) by (apply Hup; auto).
    rewrite pow_inv in Hp.
    assert (Hpos : 0 < r ^ n) by (apply pow_lt; lra).
    assert (r ^ n < 1).
    { apply Rmult_lt_compat_l with (r := r ^ n) in Hp; auto.
      rewrite Rinv_r in Hp by lra. lra. }
    replace ((r - 1) / (r ^ n - 1)) with ((1 - r) / (1 - r ^ n)) by (field; lra).
    apply Rdiv_lt_0_compat; lra.
Qed.

Lemma total_app a b : total (a ++ b) = total a + total b.
Proof. apply sumR_app. Qed.

Lemma repeat_total x n : total (repeat x n) = INR n * x.
Proof. induction n; [simpl; unfold total; simpl; lra|]. simpl repeat. unfold total in *.
  simpl sumR. rewrite IHn. rewrite S_INR. lra. Qed.

Lemma nthZ_repeat {A} (x : A) n i y : nthZ (repeat x n) i = Some y -> y = x.
Proof. intros H. apply nthZ_In in H. symmetry. eapply repeat_spec in H. congruence. Qed.

Lemma Rabs_1_lt r : 0 < r -> ~ Rabs (r - 1) <= / 10 ^ 12 -> r <> 1.
Proof.
  intros _ H E. apply H. rewrite E. replace (1 - 1) with 0 by lra. rewrite Rabs_R0.
  left. apply Rinv_0_lt_compat. apply pow_lt. lra.
Qed.

Lemma parse_sub_ok sub bg :
  bg < sd_end sub -> (1 <= sd_cells sub)%Z -> 0 < sd_ratio sub ->
  exists dL, parseOneSubDomain sub bg = Ok (sd_cells sub, sd_end sub, dL) /\
    lenZ dL = sd_cells sub /\ positive dL /\ total dL = sd_end sub - bg /\
    geometric (effective_ratio sub) dL.
Proof.
  intros He Hn Hr. unfold parseOneSubDomain, effective_ratio.
  destruct (Rle_dec _ _) as [Hu|Hs].
  - destruct (Z.ltb_spec (sd_cells sub) 0); [lia|].
    eexists; split; [reflexivity|].
    assert (0 < IZR (sd_cells sub)) by (apply IZR_lt; lia).
    split; [unfold lenZ; rewrite repeat_length; lia|].
    split; [|split].
    + apply Forall_forall. intros x Hx. apply repeat_spec in Hx. subst.
      apply Rdiv_lt_0_compat; lra.
    + rewrite repeat_total. rewrite INR_IZR_INZ. rewrite Z2Nat.id by lia. field. lra.
    + intros i x y Hx Hy. apply nthZ_repeat in Hx, Hy. lra.
  - assert (Hne : sd_ratio sub <> 1) by (apply Rabs_1_lt; auto).
    unfold stretchGrid.
    destruct (Z.ltb_spec (sd_cells sub) 0); [lia|].
    destruct (Z.eqb_spec (sd_cells sub) 0); [lia|].
    assert (Hp : sd_ratio sub ^ Z.to_nat (sd_cells sub) <> 1)
      by (apply pow_ne_1; auto; lia).
    destruct (Req_EM_T _ _) as [E|E]; [lra|].
    cbn [bind]. eexists; split; [reflexivity|].
    split; [unfold lenZ; rewrite geom_length; lia|].
    split; [|split].
    + apply geom_positive; auto.
      pose proof (pow_sign (sd_ratio sub) (Z.to_nat (sd_cells sub)) Hr Hne ltac:(lia)).
      unfold Rdiv in *. rewrite Rmult_assoc. apply Rmult_lt_0_compat; [lra|auto].
    + pose proof (geom_total (Z.to_nat (sd_cells sub))
        ((sd_end sub - bg) * (sd_ratio sub - 1) / (sd_ratio sub ^ Z.to_nat (sd_cells sub) - 1))
        (sd_ratio sub)) as Ht.
      apply Rmult_eq_reg_l with (sd_ratio sub - 1); [|lra]. rewrite Ht. field. lra.
    + apply geom_geometric.
Qed.

Definition psd_step := (fun (st : Z * R * list R) sub =>
           let '(nTotal, ed, dL) := st in
           do (nSub, ed', dLSub) <- parseOneSubDomain sub ed;
           Ok ((nTotal + nSub)%Z, ed', dL ++ dLSub)).

Lemma parse_subs_gen subs : forall bg n0 dL0,
  subs_ok bg subs -> lenZ dL0 = n0 -> positive dL0 ->
  exists n dL pieces,
    foldM psd_step subs (n0, bg, dL0) = Ok (n, last_end bg subs, dL) /\
    n = (n0 + sumZ (map sd_cells subs))%Z /\ lenZ dL = n /\ positive dL /\
    dL = dL0 ++ concat pieces /\
    total (concat pieces) = last_end bg subs - bg /\
    pieces_ok bg subs pieces.
Proof.
  induction subs as [|s t IH]; intros bg n0 dL0 Hok Hl Hp.
  - simpl. exists n0, dL0, []. simpl. rewrite app_nil_r. unfold last_end, total. simpl.
    repeat split; auto; try lia; lra.
  - simpl in Hok. destruct Hok as (He & Hc & Hr & Ht).
    destruct (parse_sub_ok s bg He Hc Hr) as (dL1 & E1 & L1 & P1 & T1 & G1).
    assert (Est : psd_step (n0, bg, dL0) s = Ok ((n0 + sd_cells s)%Z, sd_end s, dL0 ++ dL1))
      by (unfold psd_step; rewrite E1; reflexivity).
    cbn [foldM]. rewrite Est. cbn [bind].
    destruct (IH (sd_end s) (n0 + sd_cells s)%Z (dL0 ++ dL1) Ht) as (n & dL & pcs & E & Hn & L & P & Hd & T & M).
    + rewrite lenZ_app. lia.
    + apply Forall_app; auto.
    + exists n, dL, (dL1 :: pcs). rewrite E. simpl last_end.
      simpl concat. rewrite total_app. simpl map. simpl sumZ.
      repeat split; auto; try lia.
      * now rewrite <- app_assoc in Hd.
      * lra.
Qed.

Lemma parse_subs_ok subs bg :
  subs_ok bg subs ->
  exists dL pieces,
    parseSubDomains subs bg = Ok (sumZ (map sd_cells subs), last_end bg subs, dL) /\
    lenZ dL = sumZ (map sd_cells subs) /\ positive dL /\
    dL = concat pieces /\ pieces_ok bg subs pieces /\
    total dL = last_end bg subs - bg.
Proof.
  intros H. destruct (parse_subs_gen subs bg 0 [] H eq_refl (Forall_nil _))
    as (n & dL & pcs & E & Hn & L & P & Hd & T & M).
  exists dL, pcs. unfold parseSubDomains. change (foldM _ subs (0%Z, bg, []))
    with (foldM psd_step subs (0%Z, bg, [])).
  rewrite E. simpl in Hd. subst dL. rewrite Z.add_0_l in Hn. subst n.
  repeat split; auto; congruence.
Qed.

(** * Coordinates *)

Definition wd (l : list R) (k : Z) : R := match nthZ l k with Some x => x | None => 0 end.

Lemma wd_nthZ l k : (0 <= k < lenZ l)%Z -> nthZ l k = Some (wd l k).
Proof. intros H. unfold wd. destruct (nthZ_in_range l k H) as [x ->]. reflexivity. Qed.

Lemma firstn_S_total l k : (0 <= k < lenZ l)%Z ->
  total (firstn (Z.to_nat (k + 1)) l) = total (firstn (Z.to_nat k) l) + wd l k.
Proof.
  intros H. pose proof (wd_nthZ l k H) as E. unfold nthZ in E.
  destruct (Z.ltb_spec k 0); [lia|]. revert E. generalize (wd l k). intros x E.
  replace (Z.to_nat (k + 1)) with (S (Z.to_nat k)) by lia.
  revert E. clear H H0. generalize (Z.to_nat k). intros n. revert l.
  induction n as [|n IH]; intros [|y t] E; simpl in E; try discriminate.
  - injection E as ->. unfold total. simpl. lra.
  - specialize (IH t E). unfold total in *.
    change (firstn (S (S n)) (y :: t)) with (y :: firstn (S n) t).
    change (firstn (S n) (y :: t)) with (y :: firstn n t).
    cbn [sumR]. rewrite IH. lra.
Qed.

Lemma vtx_0 mn l : vtx mn l 0 = mn.
Proof. unfold vtx, total. simpl. lra. Qed.

Lemma vtx_S mn l k : (0 <= k < lenZ l)%Z -> vtx mn l (k + 1) = vtx mn l k + wd l k.
Proof. intros. unfold vtx. rewrite firstn_S_total by auto. lra. Qed.

Lemma vtx_end mn l : vtx mn l (lenZ l) = mn + total l.
Proof. unfold vtx, lenZ. rewrite Nat2Z.id, firstn_all. reflexivity. Qed.

Lemma positive_wd l k : positive l -> (0 <= k < lenZ l)%Z -> 0 < wd l k.
Proof.
  intros Hp H. pose proof (wd_nthZ l k H) as E. apply nthZ_In in E.
  unfold positive in Hp. rewrite Forall_forall in Hp. apply Hp in E. auto.
Qed.

Lemma vtx_lt mn l i j : positive l -> (0 <= i < j)%Z -> (j <= lenZ l)%Z -> vtx mn l i < vtx mn l j.
Proof.
  intros Hp Hi Hj. revert Hj. pattern j. apply (zrange_ind_up _ (i + 1)); [| |lia].
  - intros. rewrite vtx_S by lia. pose proof (positive_wd l i Hp ltac:(lia)). lra.
  - intros b Hb IH H. rewrite vtx_S by lia. pose proof (positive_wd l b Hp ltac:(lia)).
    assert (vtx mn l i < vtx mn l b) by (apply IH; lia). lra.
Qed.

Lemma psum_acc_len acc l : lenZ (psum_acc acc l) = lenZ l.
Proof. unfold lenZ. f_equal. revert acc. induction l; intros; simpl; auto. Qed.

Lemma partial_sum_as_acc l : partial_sum l = psum_acc 0 l.
Proof. destruct l; simpl; [reflexivity|]. now rewrite Rplus_0_l. Qed.

Lemma psum_acc_nth l : forall acc k, (0 <= k < lenZ l)%Z ->
  nthZ (psum_acc acc l) k = Some (acc + total (firstn (Z.to_nat (k + 1)) l)).
Proof.
  induction l as [|x t IH]; intros acc k Hk.
  - unfold lenZ in Hk. simpl in Hk. lia.
  - rewrite lenZ_cons in Hk. simpl psum_acc. replace (Z.to_nat (k + 1)) with (S (Z.to_nat k)) by lia.
    rewrite firstn_cons. unfold total. simpl sumR.
    destruct (Z.eq_dec k 0) as [->|Hne].
    + rewrite nthZ_cons_0. simpl. f_equal. lra.
    + rewrite nthZ_cons_pos by lia. rewrite IH by lia. f_equal. unfold total.
      replace (k - 1 + 1)%Z with k by lia. lra.
Qed.

Lemma vertex_coord_len mn l : lenZ (vertex_coord mn l) = (lenZ l + 1)%Z.
Proof. unfold vertex_coord. rewrite lenZ_map, lenZ_cons, partial_sum_as_acc, psum_acc_len. lia. Qed.

Lemma vertex_coord_nth mn l k : (0 <= k <= lenZ l)%Z ->
  nthZ (vertex_coord mn l) k = Some (vtx mn l k).
Proof.
  intros H. unfold vertex_coord. rewrite nthZ_map. destruct (Z.eq_dec k 0) as [->|Hne].
  - rewrite nthZ_cons_0. simpl. f_equal. rewrite vtx_0. lra.
  - rewrite nthZ_cons_pos by lia. rewrite partial_sum_as_acc, psum_acc_nth by lia.
    simpl. f_equal. unfold vtx. replace (k - 1 + 1)%Z with k by lia. lra.
Qed.

Lemma combine_nthZ {A B} (l1 : list A) (l2 : list B) k x y :
  nthZ l1 k = Some x -> nthZ l2 k = Some y -> nthZ (combine l1 l2) k = Some (x, y).
Proof.
  intros H1 H2. pose proof (nthZ_Some_range _ _ _ H1). unfold nthZ in *.
  destruct (Z.ltb_spec k 0); [lia|]. revert H1 H2. clear. generalize (Z.to_nat k).
  intros n. revert l1 l2. induction n as [|n IH]; intros [|a l1] [|b l2] H1 H2; simpl in *; try discriminate.
  - congruence.
  - auto.
Qed.

Lemma pressure_coord_len mn l : lenZ (pressure_coord mn l) = lenZ l.
Proof.
  unfold pressure_coord, map2. rewrite lenZ_map. unfold lenZ. rewrite combine_length.
  rewrite partial_sum_as_acc. pose proof (psum_acc_len 0 l). unfold lenZ in *. lia.
Qed.

Lemma pressure_coord_nth mn l k : (0 <= k < lenZ l)%Z ->
  nthZ (pressure_coord mn l) k = Some (ctr mn l k).
Proof.
  intros H. unfold pressure_coord, map2. rewrite nthZ_map.
  erewrite combine_nthZ; [| rewrite partial_sum_as_acc; apply psum_acc_nth; lia | apply wd_nthZ; lia].
  simpl. f_equal. unfold ctr. rewrite vtx_S by lia. unfold vtx.
  rewrite firstn_S_total by lia. lra.
Qed.

Lemma adj_go_nth op l : forall prev k, (0 <= k < lenZ l)%Z ->
  nthZ (adj_go op prev l) k = Some (op (wd l k) (if (k =? 0)%Z then prev else wd l (k - 1))).
Proof.
  induction l as [|y t IH]; intros prev k Hk.
  - unfold lenZ in Hk. simpl in Hk. lia.
  - rewrite lenZ_cons in Hk. simpl adj_go. destruct (Z.eqb_spec k 0) as [->|Hne].
    + unfold wd. rewrite !nthZ_cons_0. reflexivity.
    + rewrite nthZ_cons_pos by lia. rewrite IH by lia. f_equal.
      unfold wd. rewrite (nthZ_cons_pos y t k) by lia. f_equal.
      destruct (Z.eqb_spec (k - 1) 0) as [E|E].
      * replace (k - 1)%Z with 0%Z by lia. rewrite nthZ_cons_0. reflexivity.
      * rewrite (nthZ_cons_pos y t (k - 1)) by lia. reflexivity.
Qed.

Lemma adj_go_len op l prev : lenZ (adj_go op prev l) = lenZ l.
Proof. unfold lenZ. f_equal. revert prev. induction l; intros; simpl; auto. Qed.

Lemma adj_len op l : lenZ (adjacent_difference op l) = lenZ l.
Proof. destruct l; simpl; auto. rewrite !lenZ_cons, adj_go_len. reflexivity. Qed.

Lemma adj_nth op l k : (0 < k < lenZ l)%Z ->
  nthZ (adjacent_difference op l) k = Some (op (wd l k) (wd l (k - 1))).
Proof.
  intros H. destruct l as [|x t]; [unfold lenZ in H; simpl in H; lia|].
  rewrite lenZ_cons in H. simpl. rewrite nthZ_cons_pos by lia. rewrite adj_go_nth by lia.
  f_equal. unfold wd. rewrite (nthZ_cons_pos x t k) by lia. f_equal.
  destruct (Z.eqb_spec (k - 1) 0) as [E|E].
  - replace (k - 1)%Z with 0%Z by lia. reflexivity.
  - rewrite (nthZ_cons_pos x t (k - 1)) by lia. reflexivity.
Qed.

Lemma adj_0 op l : (0 < lenZ l)%Z -> nthZ (adjacent_difference op l) 0 = Some (wd l 0).
Proof. destruct l; [unfold lenZ; simpl; lia|]. reflexivity. Qed.

Lemma front_ok l : (0 < lenZ l)%Z -> front l = Ok (wd l 0).
Proof. intros. unfold front. apply rd_Ok. apply wd_nthZ. lia. Qed.
Lemma back_ok l : (0 < lenZ l)%Z -> back l = Ok (wd l (lenZ l - 1)).
Proof. intros. unfold back. apply rd_Ok. apply wd_nthZ. lia. Qed.

(** Closed forms of the velocity grid (index -1 .. n). *)
Definition own_n (per : bool) (N : Z) : Z := if per then N else (N - 1)%Z.

Definition own_c (per : bool) (mn : R) (w : list R) (i : Z) : R :=
  if (i <=? lenZ w - 1)%Z then vtx mn w (i + 1) else mn + total w + wd w 0.

Definition own_w (per : bool) (w : list R) (i : Z) : R :=
  let N := lenZ w in
  if per then
    if ((i =? -1) || (i =? N - 1))%Z%bool then (wd w 0 + wd w (N - 1)) / 2
    else if (i =? N)%Z then (if (N =? 1)%Z then (wd w 0 + wd w (N - 1)) / 2 else (wd w 1 + wd w 0) / 2)
    else (wd w (i + 1) + wd w i) / 2
  else
    if (i =? -1)%Z then wd w 0
    else if (i =? N - 1)%Z then wd w (N - 1)
    else (wd w (i + 1) + wd w i) / 2.

Definition oth_c (per : bool) (mn : R) (w : list R) (i : Z) : R :=
  let N := lenZ w in
  if (i =? -1)%Z then (if per then mn - wd w (N - 1) / 2 else mn - wd w 0 / 2)
  else if (i =? N)%Z then (if per then mn + total w + wd w 0 / 2 else mn + total w + wd w (N - 1) / 2)
  else ctr mn w i.

Definition oth_w (per : bool) (w : list R) (i : Z) : R :=
  let N := lenZ w in
  if (i =? -1)%Z then (if per then wd w (N - 1) else wd w 0)
  else if (i =? N)%Z then (if per then wd w 0 else wd w (N - 1))
  else wd w i.

Lemma nthZ_snoc {A} (l : list A) x : nthZ (l ++ [x]) (lenZ l) = Some x.
Proof. rewrite nthZ_app_r by lia. replace (lenZ l - lenZ l)%Z with 0%Z by lia. reflexivity. Qed.

Lemma lenZ_1 {A} (x : A) : lenZ [x] = 1%Z.
Proof. reflexivity. Qed.

Lemma vel_other_spec per mn mx w :
  (0 < lenZ w)%Z -> mx = mn + total w ->
  exists fd, fdir_velocity false per mn mx w = Ok fd /\
    fd_n fd = lenZ w /\
    (forall i, (-1 <= i <= lenZ w)%Z ->
       rdA (fd_coord fd) i = Ok (oth_c per mn w i) /\ rdA (fd_dL fd) i = Ok (oth_w per w i)) /\
    (forall i, (i < -1 \/ lenZ w < i)%Z -> rdA (fd_coord fd) i = UB /\ rdA (fd_dL fd) i = UB).
Proof.
  intros HN Hmx. unfold fdir_velocity, velocity_other.
  rewrite front_ok, back_ok by auto. cbn [bind].
  set (N := lenZ w) in *.
  assert (HL : lenZ (pressure_coord mn w) = N) by apply pressure_coord_len.
  assert (HL2 : lenZ w = N) by reflexivity.
  destruct per; simpl bind; eexists; (split; [reflexivity|]); simpl fd_n; (split; [reflexivity|]).
  - split.
    + intros i Hi. unfold rdA. cbn [fd_coord fd_dL a_data a_off]. split; apply rd_Ok.
      * unfold oth_c. fold N. destruct (Z.eqb_spec i (-1)) as [->|H1].
        { reflexivity. }
        rewrite nthZ_cons_pos by lia. destruct (Z.eqb_spec i N) as [E|H2].
        { replace (i + 1 - 1)%Z with (lenZ (pressure_coord mn w)) by lia. rewrite nthZ_snoc. f_equal. lra. }
        rewrite nthZ_app_l by lia. rewrite pressure_coord_nth by (fold N; lia). f_equal. f_equal. lia.
      * unfold oth_w. fold N. destruct (Z.eqb_spec i (-1)) as [->|H1].
        { reflexivity. }
        rewrite nthZ_cons_pos by lia. destruct (Z.eqb_spec i N) as [E|H2].
        { replace (i + 1 - 1)%Z with (lenZ w) by lia. rewrite nthZ_snoc. f_equal. }
        rewrite nthZ_app_l by lia. rewrite wd_nthZ by (fold N; lia). f_equal. f_equal. lia.
    + intros i Hi. unfold rdA, rd. cbn [fd_coord fd_dL a_data a_off].
      split; match goal with |- context [nthZ ?l ?k] => replace (nthZ l k) with (@None R) end; auto;
        symmetry; apply nthZ_None; rewrite lenZ_cons, lenZ_app, ?lenZ_1; lia.
  - split.
    + intros i Hi. unfold rdA. cbn [fd_coord fd_dL a_data a_off]. split; apply rd_Ok.
      * unfold oth_c. fold N. destruct (Z.eqb_spec i (-1)) as [->|H1].
        { reflexivity. }
        rewrite nthZ_cons_pos by lia. destruct (Z.eqb_spec i N) as [E|H2].
        { replace (i + 1 - 1)%Z with (lenZ (pressure_coord mn w)) by lia. rewrite nthZ_snoc. f_equal. lra. }
        rewrite nthZ_app_l by lia. rewrite pressure_coord_nth by (fold N; lia). f_equal. f_equal. lia.
      * unfold oth_w. fold N. destruct (Z.eqb_spec i (-1)) as [->|H1].
        { reflexivity. }
        rewrite nthZ_cons_pos by lia. destruct (Z.eqb_spec i N) as [E|H2].
        { replace (i + 1 - 1)%Z with (lenZ w) by lia. rewrite nthZ_snoc. f_equal. }
        rewrite nthZ_app_l by lia. rewrite wd_nthZ by (fold N; lia). f_equal. f_equal. lia.
    + intros i Hi. unfold rdA, rd. cbn [fd_coord fd_dL a_data a_off].
      split; match goal with |- context [nthZ ?l ?k] => replace (nthZ l k) with (@None R) end; auto;
        symmetry; apply nthZ_None; rewrite lenZ_cons, lenZ_app, ?lenZ_1; lia.
Qed.

Lemma upd0 {A} (x : A) l y : upd_nat (x :: l) 0 y = y :: l.
Proof. reflexivity. Qed.

Lemma halfsum_comm a b : halfsum a b = (a + b) / 2.
Proof. unfold halfsum. lra. Qed.

Lemma vel_own_spec per mn mx w :
  (0 < lenZ w)%Z -> mx = mn + total w ->
  exists fd, fdir_velocity true per mn mx w = Ok fd /\
    fd_n fd = own_n per (lenZ w) /\
    (forall i, (-1 <= i <= own_n per (lenZ w))%Z ->
       rdA (fd_coord fd) i = Ok (own_c per mn w i) /\ rdA (fd_dL fd) i = Ok (own_w per w i)) /\
    (forall i, (i < -1 \/ own_n per (lenZ w) < i)%Z -> rdA (fd_coord fd) i = UB /\ rdA (fd_dL fd) i = UB).
Proof.
  intros HN Hmx. unfold fdir_velocity, velocity_own, own_n.
  rewrite ?front_ok, ?back_ok by auto.
  set (N := lenZ w) in *.
  set (adj := adjacent_difference halfsum w) in *.
  assert (HLa : lenZ adj = N) by apply adj_len.
  assert (HLv : lenZ (vertex_coord mn w) = (N + 1)%Z) by apply vertex_coord_len.
  destruct per; cbn [bind].
  - assert (Hadj : exists a0 rest, adj = a0 :: rest).
    { destruct adj; [unfold lenZ in HLa; simpl in HLa; lia|eauto]. }
    destruct Hadj as (a0 & rest & Ea). rewrite Ea in *.
    assert (HLr : lenZ rest = (N - 1)%Z) by (rewrite lenZ_cons in HLa; lia).
    unfold wr. rewrite lenZ_app, lenZ_cons, lenZ_1.
    destruct (Z.ltb_spec 0 (1 + lenZ rest + 1)); [|lia]. simpl andb.
    change (Z.to_nat 0) with O. rewrite <- app_comm_cons. rewrite upd0. cbn [bind].
    set (b := halfsum (wd w 0) (wd w (N - 1))).
    assert (Hx1 : exists x1, nthZ (b :: rest ++ [b]) 1 = Some x1 /\
               x1 = if (N =? 1)%Z then b else (wd w 1 + wd w 0) / 2).
    { rewrite nthZ_cons_pos by lia. replace (1 - 1)%Z with 0%Z by lia.
      destruct (Z.eqb_spec N 1) as [E|E].
      - exists b. destruct rest; [auto|]. rewrite lenZ_cons in HLr. pose proof (lenZ_nonneg rest). lia.
      - exists (halfsum (wd w 1) (wd w 0)). split; [|apply halfsum_comm].
        rewrite nthZ_app_l by lia.
        pose proof (adj_nth halfsum w 1 ltac:(fold N; lia)) as G. fold adj in G. rewrite Ea in G.
        rewrite nthZ_cons_pos in G by lia. exact G. }
    destruct Hx1 as (x1 & E1 & V1).
    rewrite (proj2 (rd_Ok _ _ _) E1). cbn [bind].
    eexists; split; [reflexivity|]. cbn [fd_n]. split; [lia|]. split.
    + intros i Hi. unfold rdA. cbn [fd_coord fd_dL a_data a_off]. split; apply rd_Ok.
      * unfold own_c. fold N. destruct (Z.leb_spec i (N - 1)).
        { rewrite nthZ_app_l by lia. apply vertex_coord_nth. fold N. lia. }
        { replace (i + 1)%Z with (lenZ (vertex_coord mn w)) by lia. rewrite nthZ_snoc. f_equal. lra. }
      * unfold own_w. fold N.
        destruct (Z.eqb_spec i (-1)) as [->|H1]; simpl orb.
        { replace (-1 + 1)%Z with 0%Z by lia. rewrite <- app_comm_cons. rewrite nthZ_cons_0. f_equal. apply halfsum_comm. }
        rewrite <- app_comm_cons. rewrite nthZ_cons_pos by lia. replace (i + 1 - 1)%Z with i by lia.
        rewrite <- app_assoc. cbn [app].
        destruct (Z.eqb_spec i (N - 1)) as [E2|H2].
        { rewrite nthZ_app_r by lia. replace (i - lenZ rest)%Z with 0%Z by lia. rewrite nthZ_cons_0.
          f_equal. apply halfsum_comm. }
        destruct (Z.eqb_spec i N) as [E3|H3].
        { rewrite nthZ_app_r by lia. replace (i - lenZ rest)%Z with 1%Z by lia.
          rewrite nthZ_cons_pos by lia. simpl. unfold nthZ; simpl. f_equal. rewrite V1.
          destruct (Z.eqb_spec N 1); [apply halfsum_comm|reflexivity]. }
        rewrite nthZ_app_l by lia.
        pose proof (adj_nth halfsum w (i + 1) ltac:(fold N; lia)) as G. fold adj in G. rewrite Ea in G.
        rewrite nthZ_cons_pos in G by lia. replace (i + 1 - 1)%Z with i in G by lia.
        rewrite G. f_equal. apply halfsum_comm.
    + intros i Hi. unfold rdA, rd. cbn [fd_coord fd_dL a_data a_off].
      split; match goal with |- context [nthZ ?l ?k] => replace (nthZ l k) with (@None R) end; auto;
        symmetry; apply nthZ_None; repeat first [rewrite lenZ_app | rewrite lenZ_1 | rewrite lenZ_cons]; lia.
  - eexists; split; [reflexivity|]. cbn [fd_n]. split; [lia|]. split.
    + intros i Hi. unfold rdA. cbn [fd_coord fd_dL a_data a_off]. split; apply rd_Ok.
      * unfold own_c. fold N. destruct (Z.leb_spec i (N - 1)); [|lia].
        apply vertex_coord_nth. fold N. lia.
      * unfold own_w. fold N. destruct (Z.eqb_spec i (-1)) as [->|H1].
        { rewrite nthZ_app_l by lia. apply adj_0. fold N. lia. }
        destruct (Z.eqb_spec i (N - 1)) as [E2|H2].
        { replace (i + 1)%Z with (lenZ adj) by lia. apply nthZ_snoc. }
        rewrite nthZ_app_l by lia. unfold adj. rewrite adj_nth by (fold N; lia).
        f_equal. replace (i + 1 - 1)%Z with i by lia. apply halfsum_comm.
    + intros i Hi. unfold rdA, rd. cbn [fd_coord fd_dL a_data a_off].
      split; match goal with |- context [nthZ ?l ?k] => replace (nthZ l k) with (@None R) end; auto;
        symmetry; apply nthZ_None; rewrite ?lenZ_app, ?lenZ_1; lia.
Qed.
