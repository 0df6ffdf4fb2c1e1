(** C93: the delta kernels in double precision. *)
From Coq Require Import ZArith Reals List Lra Lia Bool String.
From Flocq Require Import Core BinarySingleNaN Binary Bits.
From Verif Require Import Prelude TypesModel GridModel DeltaModel RSum DeltaSpec DeltaKernel FloatModel FloatSpec FloatProof KernelModel KernelSpec KernelProof.
Import ListNotations.
Local Open Scope R_scope.

Lemma dbl_cases name K w : getKernel name = Ok (K, w) ->
  (K = Roma_et_al_1999 /\ getKernel_dbl name = Some Roma_dbl /\ radius name = 3 / 2) \/
  (K = Peskin_2002 /\ getKernel_dbl name = Some Peskin_dbl /\ radius name = 2).
Proof.
  unfold getKernel, getKernel_dbl, radius. destruct (name =? "ROMA_ET_AL_1999")%string; [intros [= <- _]; auto|].
  destruct (name =? "PESKIN_2002")%string; [intros [= <- _]; auto|discriminate].
Qed.
Lemma width_pos r dr : usual r dr -> 0 < val dr.
Proof. intros (_ & _ & H & _). assert (0 < / 2 ^ 500) by (apply Rinv_0_lt_compat, pow_lt; lra). lra. Qed.

(** C93. Each kernel of the configuration, computed in doubles, is a finite
    number within 2^-41 / dr of its exact value. *)
Theorem kernel_rounding : forall name K w r dr, getKernel name = Ok (K, w) -> usual r dr ->
  exists Kd, getKernel_dbl name = Some Kd /\ finite (Kd r dr) /\
    Rabs (val (Kd r dr) - kval K (val r) (val dr)) <= / 2 ^ 41 / val dr.
Proof.
  intros name K w r dr HK U. pose proof (width_pos _ _ U) as P. destruct U as (Fr & Fd & Hd & Hr).
  destruct (dbl_cases _ _ _ HK) as [(-> & E & _)|(-> & E & _)]; eexists; (split; [exact E|]); unfold kval.
  - rewrite roma_ok by exact P. cbn [ok_or]. apply (scaled_error r dr Fr Fd Hd Hr roma1); [now apply roma_at|apply roma_lip|intros; apply roma1_out; lra].
  - rewrite peskin_ok by exact P. cbn [ok_or]. apply (scaled_error r dr Fr Fd Hd Hr peskin1); [now apply peskin_at|apply peskin_lip|intros; apply peskin1_out; lra].
Qed.
Print Assumptions kernel_rounding.

(** C93. It is exactly zero at the published radius and beyond, in spite of
    rounding. *)
Theorem kernel_support_exact : forall name K w r dr Kd, getKernel name = Ok (K, w) -> getKernel_dbl name = Some Kd -> usual r dr ->
  radius name * val dr <= Rabs (val r) -> val (Kd r dr) = 0.
Proof.
  intros name K w r dr Kd HK HD (Fr & Fd & Hd & Hr) H.
  destruct (dbl_cases _ _ _ HK) as [(_ & E & R)|(_ & E & R)]; rewrite E in HD; injection HD as <-; rewrite R in H; [now apply roma_far|now apply peskin_far].
Qed.
Print Assumptions kernel_support_exact.

(** C93. It takes the same double on both sides of a point. *)
Theorem kernel_even_exact : forall name Kd r dr, getKernel_dbl name = Some Kd -> finite r -> Kd (b64_opp r) dr = Kd r dr.
Proof.
  intros name Kd r dr H Fr. assert (E : dabs (b64_opp r) = dabs r) by (destruct r; try discriminate; reflexivity).
  revert H. unfold getKernel_dbl. destruct (name =? _)%string; [|destruct (name =? _)%string; [|discriminate]]; intros [= <-];
    unfold Roma_dbl, Peskin_dbl; now rewrite E.
Qed.
Print Assumptions kernel_even_exact.

(** C93. The weights of the points lo, ..., hi - 1 of a line with spacing h
    around a point x, each from a distance that is itself off by at most e cells,
    add up to 1 within (hi - lo) * (2^-41 + e). *)
Theorem weights_add_up : forall name K w Kd x h e lo hi (r : Z -> dbl), getKernel name = Ok (K, w) -> getKernel_dbl name = Some Kd ->
  (lo <= hi)%Z -> covers (radius name) (val h) x lo hi ->
  (forall k, (lo <= k < hi)%Z -> usual (r k) h /\ Rabs (val (r k) - (x - IZR k * val h)) <= e * val h) -> 0 < val h ->
  Rabs (zsum (fun k => val (Kd (r k) h) * val h) lo hi - 1) <= IZR (hi - lo) * (/ 2 ^ 41 + e).
Proof.
  intros name K w Kd x h e lo hi r HK HD Hlh C Hr P.
  replace 1 with (zsum (fun k => kval K (x - IZR k * val h) (val h) * val h) lo hi).
  2: { unfold zsum. rewrite sumR_scal_r. fold (zsum (fun k => kval K (x - IZR k * val h) (val h)) lo hi). rewrite (kernel_zeroth _ _ _ _ _ _ _ HK P C). field. lra. }
  apply zsum_close; [exact Hlh|]. intros k Hk. destruct (Hr k Hk) as [U D].
  destruct (kernel_rounding _ _ _ _ _ HK U) as (Kd' & HD' & _ & B). rewrite HD in HD'. injection HD' as <-.
  assert (M : Rabs (kval K (val (r k)) (val h) * val h - kval K (x - IZR k * val h) (val h) * val h) <= e).
  { assert (Q : Rabs (val (r k) - (x - IZR k * val h)) / val h <= e) by (apply Rmult_le_reg_r with (val h); [exact P|]; unfold Rdiv; rewrite Rmult_assoc, Rinv_l by lra; lra).
    unfold kval. destruct (dbl_cases _ _ _ HK) as [(-> & _)|(-> & _)].
    - rewrite !roma_ok by exact P. cbn [ok_or]. unfold Rdiv at 1 3. rewrite !Rmult_assoc, !Rinv_l, !Rmult_1_r by lra.
      eapply Rle_trans; [apply lip_all; [exact P|exact roma_lip]|exact Q].
    - rewrite !peskin_ok by exact P. cbn [ok_or]. unfold Rdiv at 1 3. rewrite !Rmult_assoc, !Rinv_l, !Rmult_1_r by lra.
      eapply Rle_trans; [apply lip_all; [exact P|exact peskin_lip]|exact Q]. }
  assert (N : Rabs (val (Kd (r k) h) * val h - kval K (val (r k)) (val h) * val h) <= / 2 ^ 41).
  { rewrite <- Rmult_minus_distr_r, Rabs_mult, (Rabs_pos_eq (val h)) by lra. apply Rmult_le_reg_r with (/ val h); [now apply Rinv_0_lt_compat|].
    rewrite Rmult_assoc, Rinv_r, Rmult_1_r by lra. exact B. }
  match goal with |- Rabs (?a - ?b) <= _ => replace (a - b) with ((a - kval K (val (r k)) (val h) * val h) + (kval K (val (r k)) (val h) * val h - b)) by ring end.
  eapply Rle_trans; [apply Rabs_triang|]. lra.
Qed.
Print Assumptions weights_add_up.

Lemma rd1 {A} (a b : A) l : rd (a :: b :: l) 1 = Ok b.
Proof. reflexivity. Qed.
Lemma rd2 {A} (a b c : A) l : rd (a :: b :: c :: l) 2 = Ok c.
Proof. reflexivity. Qed.
Lemma delta_general f K Kd source target widths :
  (forall r h, 0 < h -> K r h = Ok (f (Rabs r / h) / h)) ->
  (forall r h, plain_width h -> finite r -> Rabs (val r) <= 2 ^ 500 -> finite (Kd r h) /\ Rabs (val (Kd r h) - f (Rabs (val r) / val h) / val h) <= / 2 ^ 41 / val h) ->
  lip f 0 100 -> (forall z, 2 <= z -> f z = 0) -> (forall z, 0 <= z -> 0 <= f z <= 1) ->
  length source = length widths -> length target = length widths -> (length widths <= 3)%nat ->
  Forall near_origin source -> Forall near_origin target -> Forall plain_width widths ->
  exists y, delta (map val source) (map val target) (map val widths) K = Ok y /\ finite (delta_dbl source target widths Kd) /\
    Rabs (val (delta_dbl source target widths Kd) - y) <= INR (length widths) * / 2 ^ 39 / volume widths.
Proof.
  intros HK HD L Z2 F1 Ls Lt L3 Hs Ht Hw.
  assert (Q : Forall (fun stw => near_origin (fst (fst stw)) /\ near_origin (snd (fst stw)) /\ plain_width (snd stw)) (combine (combine source target) widths)).
  { apply Forall_forall. intros [[s t] h] I. cbn [fst snd]. rewrite Forall_forall in Hs, Ht, Hw.
    pose proof (in_combine_r _ _ _ _ I). apply in_combine_l in I. pose proof (in_combine_r _ _ _ _ I). apply in_combine_l in I. auto. }
  destruct (int_val 1 ltac:(lia)) as [G1 V1].
  destruct (prod_close f Kd HD L Z2 F1 (combine (combine source target) widths) 0 (dofZ 1) 1 1) as [G E]; auto.
  { rewrite !combine_length, Ls, Lt, !Nat.min_id. lia. }
  { rewrite V1. cbn [INR]. rewrite Rmult_1_r, Rmult_0_l. unfold Rminus. rewrite Rplus_opp_r, Rabs_R0. lra. }
  { lra. }
  { change (100 * 0)%nat with 0%nat. rewrite pow_O. lra. }
  assert (LC : length (combine (combine source target) widths) = length widths) by (rewrite !combine_length, Ls, Lt, !Nat.min_id; reflexivity).
  rewrite LC in E. cbn [Nat.add] in E.
  assert (WP : forall h, In h widths -> 0 < val h) by (intros h I; rewrite Forall_forall in Hw; now apply width_positive, Hw).
  assert (PV : 0 < volume widths).
  { clear - WP. induction widths as [|h l IH]; cbn; [lra|]. apply Rmult_lt_0_compat; [apply WP; now left|apply IH; intros; apply WP; now right]. }
  assert (KEY : delta (map val source) (map val target) (map val widths) K = Ok (ex_prod f 1 (combine (combine source target) widths) / volume widths) /\
                vol_prod 1 (combine (combine source target) widths) = volume widths /\
                dbl_prod Kd (dofZ 1) (combine (combine source target) widths) = delta_dbl source target widths Kd).
  { clear E G. destruct widths as [|h0 [|h1 [|h2 [|]]]]; destruct source as [|s0 [|s1 [|s2 [|]]]]; try discriminate;
      destruct target as [|t0 [|t1 [|t2 [|]]]]; try discriminate; try (cbn in L3; lia);
      (split; [|split; [cbn [vol_prod combine volume fold_right snd]; ring|reflexivity]]); unfold delta, lenZ; cbn [map length Z.of_nat Pos.of_succ_nat Pos.succ].
    - cbn. f_equal. field.
    - pose proof (WP h0 ltac:(cbn; auto)). change (zrange 0 1) with [0%Z]. cbn -[Rabs Rmult Rdiv Rminus]. rewrite ?HK by assumption. cbn -[Rabs Rmult Rdiv Rminus]. rewrite ?rd1, ?rd2. cbn -[Rabs Rmult Rdiv Rminus]. f_equal. unfold ratio. field. lra.
    - pose proof (WP h0 ltac:(cbn; auto)). pose proof (WP h1 ltac:(cbn; auto)). change (zrange 0 2) with [0%Z; 1%Z]. cbn -[Rabs Rmult Rdiv Rminus]. rewrite ?HK by assumption. cbn -[Rabs Rmult Rdiv Rminus]. rewrite ?rd1, ?rd2. cbn -[Rabs Rmult Rdiv Rminus]. rewrite ?HK by assumption. cbn -[Rabs Rmult Rdiv Rminus]. rewrite ?rd1, ?rd2. cbn -[Rabs Rmult Rdiv Rminus]. f_equal. unfold ratio. field. lra.
    - pose proof (WP h0 ltac:(cbn; auto)). pose proof (WP h1 ltac:(cbn; auto)). pose proof (WP h2 ltac:(cbn; auto)). change (zrange 0 3) with [0%Z; 1%Z; 2%Z].
      cbn -[Rabs Rmult Rdiv Rminus]. rewrite ?HK by assumption. cbn -[Rabs Rmult Rdiv Rminus]. rewrite ?rd1, ?rd2. cbn -[Rabs Rmult Rdiv Rminus]. rewrite ?HK by assumption. cbn -[Rabs Rmult Rdiv Rminus]. rewrite ?rd1, ?rd2. cbn -[Rabs Rmult Rdiv Rminus]. rewrite ?HK by assumption. cbn -[Rabs Rmult Rdiv Rminus]. rewrite ?rd1, ?rd2. cbn -[Rabs Rmult Rdiv Rminus]. f_equal. unfold ratio. field. lra. }
  destruct KEY as (K1 & K2 & K3). rewrite K2, K3 in E. rewrite K3 in G. eexists. split; [exact K1|]. split; [exact G|].
  set (z := val (delta_dbl source target widths Kd)) in *. set (x := ex_prod f 1 (combine (combine source target) widths)) in *.
  replace (z - x / volume widths) with ((z * volume widths - x) * / volume widths) by (field; lra).
  rewrite Rabs_mult, (Rabs_pos_eq (/ volume widths)) by (left; now apply Rinv_0_lt_compat).
  apply Rmult_le_compat_r; [left; now apply Rinv_0_lt_compat|exact E].
Qed.

(** C93. The discrete delta function of one, two or three directions, computed in
    doubles from the coordinates of a body point and of a grid point, is a finite
    number within d * 2^-39 / (volume of the cell) of its exact value. *)
Theorem delta_rounding : forall name K w Kd source target widths, getKernel name = Ok (K, w) -> getKernel_dbl name = Some Kd ->
  length source = length widths -> length target = length widths -> (length widths <= 3)%nat ->
  Forall near_origin source -> Forall near_origin target -> Forall plain_width widths ->
  exists y, delta (map val source) (map val target) (map val widths) K = Ok y /\ finite (delta_dbl source target widths Kd) /\
    Rabs (val (delta_dbl source target widths Kd) - y) <= INR (length widths) * / 2 ^ 39 / volume widths.
Proof.
  intros name K w Kd source target widths HK HD.
  assert (U : forall r h, plain_width h -> finite r -> Rabs (val r) <= 2 ^ 500 -> usual r h).
  { intros r h [Fh Bh] Fr Br. repeat split; auto; [pose proof (inv_le 100 500 ltac:(lia)); lra|assert (2 ^ 100 <= 2 ^ 500) by (apply Rle_pow; [lra|lia]); lra]. }
  assert (B : forall r h, plain_width h -> finite r -> Rabs (val r) <= 2 ^ 500 -> finite (Kd r h) /\ Rabs (val (Kd r h) - kval K (val r) (val h)) <= / 2 ^ 41 / val h).
  { intros r h Wh Fr Br. destruct (kernel_rounding _ _ _ _ _ HK (U r h Wh Fr Br)) as (Kd' & E & R). rewrite HD in E. now injection E as <-. }
  destruct (dbl_cases _ _ _ HK) as [(-> & _)|(-> & _)].
  - apply (delta_general roma1); [exact roma_ok| |apply roma_lip|intros; apply roma1_out; lra|exact roma_le1].
    intros r h Wh Fr Br. specialize (B r h Wh Fr Br). unfold kval in B. rewrite roma_ok in B by now apply width_positive. exact B.
  - apply (delta_general peskin1); [exact peskin_ok| |apply peskin_lip|intros; apply peskin1_out; lra|exact peskin_le1].
    intros r h Wh Fr Br. specialize (B r h Wh Fr Br). unfold kval in B. rewrite peskin_ok in B by now apply width_positive. exact B.
Qed.
Print Assumptions delta_rounding.

(** C93. The exact kernels are positive inside their radius (C27). The computed
    ones are not always: six doubles below the radius, both are negative. *)
Definition below_3_2 : dbl := B754_finite 53 1024 false 6755399441055738 (-52) eq_refl.
Definition below_2 : dbl := B754_finite 53 1024 false 9007199254740986 (-52) eq_refl.
Theorem kernel_positive_refuted : forall name K w, getKernel name = Ok (K, w) ->
  exists Kd r, getKernel_dbl name = Some Kd /\ usual r (dofZ 1) /\ 0 < val r < radius name /\ val (Kd r (dofZ 1)) < 0 /\ 0 < kval K (val r) 1.
Proof.
  intros name K w HK. assert (P : 1 <= 2 ^ 500) by (apply pow_R1_Rle; lra). assert (P2 : 2 <= 2 ^ 500) by (replace 2 with (2 ^ 1) at 1 by (cbn; lra); apply Rle_pow; [lra|lia]).
  assert (I : / 2 ^ 500 <= 1) by (rewrite <- Rinv_1; apply Rinv_le_contravar; lra).
  destruct (int_val 0 ltac:(lia)) as [F0 V0]. destruct (int_val 1 ltac:(lia)) as [F1 V1]. destruct (int_val 2 ltac:(lia)) as [F2 V2]. destruct (half_val 3 ltac:(lia)) as [F3 V3].
  assert (D : forall r c, finite r -> finite c -> 0 < val r -> val r < val c -> val c <= 2 -> usual r (dofZ 1)).
  { intros r c Fr _ A B C. split; [exact Fr|]. split; [exact F1|]. rewrite V1. split; [lra|]. rewrite Rabs_pos_eq; lra. }
  destruct (dbl_cases _ _ _ HK) as [(EK & E & R)|(EK & E & R)]; rewrite R.
  - assert (Fr : finite below_3_2) by reflexivity. assert (Fz : finite (Roma_dbl below_3_2 (dofZ 1))) by (vm_compute; reflexivity).
    assert (A : 0 < val below_3_2) by (rewrite <- V0; apply dlt_spec; auto; vm_compute; reflexivity).
    assert (B : val below_3_2 < val (ddiv (dofZ 3) (dofZ 2))) by (apply dlt_spec; auto; vm_compute; reflexivity).
    exists Roma_dbl, below_3_2. split; [exact E|]. split; [apply (D _ (ddiv (dofZ 3) (dofZ 2))); auto; lra|]. split; [lra|]. split; [rewrite <- V0; apply dlt_spec; auto; vm_compute; reflexivity|].
    apply (kernel_in name K w); [exact HK|lra|]. rewrite R, Rabs_pos_eq; lra.
  - assert (Fr : finite below_2) by reflexivity. assert (Fz : finite (Peskin_dbl below_2 (dofZ 1))) by (vm_compute; reflexivity).
    assert (A : 0 < val below_2) by (rewrite <- V0; apply dlt_spec; auto; vm_compute; reflexivity).
    assert (B : val below_2 < val (dofZ 2)) by (apply dlt_spec; auto; vm_compute; reflexivity).
    exists Peskin_dbl, below_2. split; [exact E|]. split; [apply (D _ (dofZ 2)); auto; lra|]. split; [lra|]. split; [rewrite <- V0; apply dlt_spec; auto; vm_compute; reflexivity|].
    apply (kernel_in name K w); [exact HK|lra|]. rewrite R, Rabs_pos_eq; lra.
Qed.
Print Assumptions kernel_positive_refuted.

(** The hypotheses hold in a concrete case: a point at 1/2 on a line with spacing
    1 and the points -2, ..., 2. *)
Definition half_off (k : Z) : dbl := ddiv (dofZ (1 - 2 * k)) (dofZ 2).
Example line_case :
  getKernel_dbl "ROMA_ET_AL_1999" = Some Roma_dbl /\ covers (radius "ROMA_ET_AL_1999") (val (dofZ 1)) (/ 2) (-2) 3 /\
  (forall k, (-2 <= k < 3)%Z -> usual (half_off k) (dofZ 1) /\ Rabs (val (half_off k) - (/ 2 - IZR k * val (dofZ 1))) <= 0 * val (dofZ 1)) /\
  Roma_dbl (half_off 0) (dofZ 1) = half_off 0.
Proof.
  destruct (int_val 1 ltac:(lia)) as [F1 V1]. rewrite V1. split; [reflexivity|]. split; [|split].
  - intros k Hk. change (radius "ROMA_ET_AL_1999") with (3 / 2). destruct (Z_lt_le_dec k (-2)) as [A|A].
    + apply IZR_lt in A. rewrite Rabs_pos_eq; lra.
    + assert (B : (3 <= k)%Z) by lia. apply IZR_le in B. rewrite Rabs_left1; lra.
  - intros k Hk. destruct (half_val (1 - 2 * k) ltac:(lia)) as [F V]. fold (half_off k) in F, V. rewrite minus_IZR, mult_IZR in V.
    assert (BL : -2 <= IZR k <= 2) by (split; apply IZR_le; lia).
    assert (P : 1 <= 2 ^ 500) by (apply pow_R1_Rle; lra). assert (P2 : 8 <= 2 ^ 500) by (replace 8 with (2 ^ 3) by (cbn; lra); apply Rle_pow; [lra|lia]).
    assert (I : / 2 ^ 500 <= 1) by (rewrite <- Rinv_1; apply Rinv_le_contravar; lra).
    split; [|rewrite V; replace (_ - _) with 0 by field; rewrite Rabs_R0; lra].
    split; [exact F|]. split; [exact F1|]. rewrite V1. split; [lra|]. rewrite V. apply Rabs_le. split; lra.
  - apply B2FF_inj. now vm_compute.
Qed.

(** A point at (1/2, 1/2) and the grid point (0, 0), cells of width 1: the value is 1/4. *)
Example delta_case :
  Forall near_origin [half_off 0; half_off 0] /\ Forall near_origin [dofZ 0; dofZ 0] /\ Forall plain_width [dofZ 1; dofZ 1] /\
  delta_dbl [half_off 0; half_off 0] [dofZ 0; dofZ 0] [dofZ 1; dofZ 1] Roma_dbl = ddiv (dofZ 1) (dofZ 4).
Proof.
  assert (P : 1 <= 2 ^ 400) by (apply pow_R1_Rle; lra). assert (P1 : 1 <= 2 ^ 100) by (apply pow_R1_Rle; lra).
  assert (I : / 2 ^ 100 <= 1) by (rewrite <- Rinv_1; apply Rinv_le_contravar; lra).
  destruct (int_val 1 ltac:(lia)) as [F1 V1]. destruct (int_val 0 ltac:(lia)) as [F0 V0]. destruct (half_val 1 ltac:(lia)) as [FH VH].
  assert (A : near_origin (half_off 0)) by (split; [exact FH|]; change (half_off 0) with (ddiv (dofZ 1) (dofZ 2)); rewrite VH; apply Rabs_le; lra).
  assert (B : near_origin (dofZ 0)) by (split; [exact F0|]; rewrite V0, Rabs_R0; lra).
  assert (C : plain_width (dofZ 1)) by (split; [exact F1|]; rewrite V1; lra).
  split; [|split; [|split]]; auto. apply B2FF_inj. now vm_compute.
Qed.
