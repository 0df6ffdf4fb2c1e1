(** The two kernels. *)
From Coq Require Import String.
From Verif Require Import Prelude ZSum RSum TypesModel GridModel GridSpec IndexModel IndexSpec BoundaryModel BoundarySpec
  OperatorModel OperatorSpec BodyModel BodySpec DeltaModel DeltaSpec.
Local Open Scope R_scope.

Lemma csqrt_ok x : 0 <= x -> csqrt x = Ok (sqrt x).
Proof. intros H. unfold csqrt. destruct (Rlt_dec x 0); [lra|reflexivity]. Qed.
Lemma cdiv_ok a b : b <> 0 -> cdiv a b = Ok (a / b).
Proof. intros H. unfold cdiv. destruct (Req_EM_T b 0); [contradiction|reflexivity]. Qed.

(** Closed forms, in terms of x = |r| / h. *)
Definition roma1 (x : R) : R :=
  if Rlt_dec (3/2) x then 0 else if Rlt_dec (1/2) x then (5 - 3 * x - sqrt (1 - 3 * (1 - x) * (1 - x))) / 6
  else (1 + sqrt (1 - 3 * x * x)) / 3.
Definition peskin1 (x : R) : R :=
  if Rle_dec x 1 then (3 - 2 * x + sqrt (1 + 4 * x - 4 * x * x)) / 8
  else if Rle_dec x 2 then (5 - 2 * x - sqrt (- 7 + 12 * x - 4 * x * x)) / 8 else 0.

Lemma abs_div r h : 0 < h -> 0 <= Rabs r / h.
Proof. intros H. apply Rmult_le_pos; [apply Rabs_pos|]. left. now apply Rinv_0_lt_compat. Qed.

Lemma roma_ok r h : 0 < h -> Roma_et_al_1999 r h = Ok (roma1 (Rabs r / h) / h).
Proof.
  intros H. unfold Roma_et_al_1999, roma1. rewrite cdiv_ok by lra. cbn [bind]. pose proof (abs_div r h H) as P.
  set (x := Rabs r / h) in *. clearbody x.
  destruct (Rlt_dec (15/10) x), (Rlt_dec (3/2) x); try lra; [f_equal; field; lra|].
  destruct (Rlt_dec (5/10) x), (Rlt_dec (1/2) x); try lra.
  - destruct (Rle_dec x (15/10)); [|lra].
    replace (-3 * (1 - x) * (1 - x) + 1) with (1 - 3 * (1 - x) * (1 - x)) by ring.
    rewrite csqrt_ok by nra. cbn [bind]. rewrite cdiv_ok by lra. f_equal. field. lra.
  - replace (-3 * x * x + 1) with (1 - 3 * x * x) by ring.
    rewrite csqrt_ok by nra. cbn [bind]. rewrite cdiv_ok by lra. f_equal. field. lra.
Qed.

Lemma peskin_ok r h : 0 < h -> Peskin_2002 r h = Ok (peskin1 (Rabs r / h) / h).
Proof.
  intros H. unfold Peskin_2002, peskin1. rewrite cdiv_ok by lra. cbn [bind]. pose proof (abs_div r h H) as P.
  set (x := Rabs r / h) in *. clearbody x.
  destruct (Rle_dec 0 x); [|lra]. destruct (Rle_dec x 1).
  - rewrite csqrt_ok by nra. cbn [bind]. rewrite cdiv_ok by lra. f_equal. field. lra.
  - destruct (Rle_dec 1 x); [|lra]. destruct (Rle_dec x 2); [|f_equal; field; lra].
    rewrite csqrt_ok by nra. cbn [bind]. rewrite cdiv_ok by lra. f_equal. field. lra.
Qed.

(** Branches, including the end points where the formulas agree. *)
Lemma roma1_out x : 3/2 <= x -> roma1 x = 0.
Proof.
  intros H. unfold roma1. destruct (Rlt_dec (3/2) x); [reflexivity|]. assert (x = 3/2) by lra. subst x.
  destruct (Rlt_dec (1/2) (3/2)); [|lra]. replace (1 - 3 * (1 - 3/2) * (1 - 3/2)) with ((1/2) * (1/2)) by field.
  rewrite sqrt_square by lra. lra.
Qed.
Lemma roma1_mid x : 1/2 <= x <= 3/2 -> roma1 x = (5 - 3 * x - sqrt (1 - 3 * (1 - x) * (1 - x))) / 6.
Proof.
  intros H. unfold roma1. destruct (Rlt_dec (3/2) x); [lra|]. destruct (Rlt_dec (1/2) x); [reflexivity|].
  assert (x = 1/2) by lra. subst x.
  replace (1 - 3 * (1 / 2) * (1 / 2)) with ((1/2) * (1/2)) by field.
  replace (1 - 3 * (1 - 1/2) * (1 - 1/2)) with ((1/2) * (1/2)) by field. rewrite sqrt_square by lra. lra.
Qed.
Lemma roma1_in x : 0 <= x <= 1/2 -> roma1 x = (1 + sqrt (1 - 3 * x * x)) / 3.
Proof. intros H. unfold roma1. destruct (Rlt_dec (3/2) x); [lra|]. destruct (Rlt_dec (1/2) x); [lra|]. reflexivity. Qed.
Lemma peskin1_out x : 2 <= x -> peskin1 x = 0.
Proof.
  intros H. unfold peskin1. destruct (Rle_dec x 1); [lra|]. destruct (Rle_dec x 2); [|reflexivity]. assert (x = 2) by lra. subst x.
  replace (-7 + 12 * 2 - 4 * 2 * 2) with (1 * 1) by ring. rewrite sqrt_square by lra. lra.
Qed.
Lemma peskin1_mid x : 1 <= x <= 2 -> peskin1 x = (5 - 2 * x - sqrt (- 7 + 12 * x - 4 * x * x)) / 8.
Proof.
  intros H. unfold peskin1. destruct (Rle_dec x 1).
  - assert (x = 1) by lra. subst x. replace (-7 + 12 * 1 - 4 * 1 * 1) with (1 * 1) by ring.
    replace (1 + 4 * 1 - 4 * 1 * 1) with (1 * 1) by ring. rewrite sqrt_square by lra. lra.
  - destruct (Rle_dec x 2); [reflexivity|lra].
Qed.
Lemma peskin1_in x : 0 <= x <= 1 -> peskin1 x = (3 - 2 * x + sqrt (1 + 4 * x - 4 * x * x)) / 8.
Proof. intros H. unfold peskin1. destruct (Rle_dec x 1); [reflexivity|lra]. Qed.

Lemma sqrt_le_of a b : 0 <= b -> a <= b * b -> sqrt a <= b.
Proof. intros Hb H. rewrite <- (sqrt_square b) by auto. now apply sqrt_le_1_alt. Qed.

Lemma roma1_nonneg x : 0 <= x -> 0 <= roma1 x.
Proof.
  intros H. destruct (Rle_dec (3/2) x); [rewrite roma1_out; lra|]. destruct (Rle_dec (1/2) x).
  - rewrite roma1_mid by lra. pose proof (sqrt_le_of (1 - 3 * (1 - x) * (1 - x)) (5 - 3 * x) ltac:(lra)) as S.
    assert (sqrt (1 - 3 * (1 - x) * (1 - x)) <= 5 - 3 * x) by (apply S; assert (0 <= (2 * x - 3) * (2 * x - 3)) by apply Rle_0_sqr; nra). lra.
  - rewrite roma1_in by lra. pose proof (sqrt_pos (1 - 3 * x * x)). lra.
Qed.
Lemma peskin1_nonneg x : 0 <= x -> 0 <= peskin1 x.
Proof.
  intros H. destruct (Rle_dec 2 x); [rewrite peskin1_out; lra|]. destruct (Rle_dec 1 x).
  - rewrite peskin1_mid by lra. pose proof (sqrt_le_of (- 7 + 12 * x - 4 * x * x) (5 - 2 * x) ltac:(lra)) as S.
    assert (sqrt (- 7 + 12 * x - 4 * x * x) <= 5 - 2 * x) by (apply S; assert (0 <= (x - 2) * (x - 2)) by apply Rle_0_sqr; nra). lra.
  - rewrite peskin1_in by lra. pose proof (sqrt_pos (1 + 4 * x - 4 * x * x)). lra.
Qed.

Lemma zsum_zero f a b : (forall k, (a <= k < b)%Z -> f k = 0) -> zsum f a b = 0.
Proof. intros H. apply sumR_zero. intros k Hk. apply zrange_In in Hk. auto. Qed.

(** * Sums of functions that vanish outside a window *)
Lemma zsum_support f lo hi a b : (lo <= hi)%Z -> (a <= b)%Z -> (a <= hi)%Z -> (lo <= b)%Z ->
  (forall k, (lo <= k < hi)%Z -> ~ (a <= k < b)%Z -> f k = 0) ->
  (forall k, (a <= k < b)%Z -> ~ (lo <= k < hi)%Z -> f k = 0) -> zsum f lo hi = zsum f a b.
Proof.
  intros H1 H2 H3 H4 Z1 Z2.
  assert (E : forall p q u v, (p <= u <= v)%Z -> (v <= q)%Z -> (forall k, (p <= k < q)%Z -> ~ (u <= k < v)%Z -> f k = 0) ->
    zsum f p q = zsum f u v).
  { intros p q u v Hu Hv Hz. rewrite (zsum_app f p u q) by lia. rewrite (zsum_app f u v q) by lia.
    rewrite (zsum_zero f p u) by (intros; apply Hz; lia). rewrite (zsum_zero f v q) by (intros; apply Hz; lia). lra. }
  transitivity (zsum f (Z.min lo a) (Z.max hi b)).
  - symmetry. apply E; [lia|lia|]. intros k Hk Hn. apply Z2; lia.
  - apply E; [lia|lia|]. intros k Hk Hn. apply Z1; lia.
Qed.

(** * Moments *)
Lemma nearest x : exists k, - (1/2) <= x - IZR k < 1/2.
Proof. exists (up (x - 1/2)). destruct (archimed (x - 1/2)). lra. Qed.
Lemma floor_of x : exists k, 0 <= x - IZR k < 1.
Proof. exists (up x - 1)%Z. rewrite minus_IZR. destruct (archimed x). lra. Qed.

Lemma IZR_out k a b : ~ (a <= k < b)%Z -> (IZR k <= IZR a - 1 \/ IZR b <= IZR k).
Proof.
  intros H. destruct (Z_lt_ge_dec k a) as [L|L]; [left|right].
  - rewrite <- minus_IZR. apply IZR_le. lia.
  - apply IZR_le. lia.
Qed.

Lemma zsum3 f a : zsum f a (a + 3) = f a + f (a + 1)%Z + f (a + 2)%Z.
Proof.
  rewrite (zsum_cons f a) by lia. rewrite (zsum_cons f (a + 1)) by lia. rewrite (zsum_cons f (a + 1 + 1)) by lia.
  replace (a + 1 + 1)%Z with (a + 2)%Z by lia. replace (a + 2 + 1)%Z with (a + 3)%Z by lia.
  rewrite zsum_nil by lia. lra.
Qed.
Lemma zsum4 f a : zsum f a (a + 4) = f a + f (a + 1)%Z + f (a + 2)%Z + f (a + 3)%Z.
Proof.
  rewrite (zsum_app f a (a + 3)) by lia. rewrite zsum3. rewrite (zsum_cons f (a + 3)) by lia. rewrite zsum_nil by lia. lra.
Qed.

Definition covers1 (rad y : R) (lo hi : Z) : Prop := forall k, ~ (lo <= k < hi)%Z -> rad <= Rabs (y - IZR k).
Lemma covers_unit rad h x lo hi : 0 < h -> covers rad h x lo hi -> covers1 rad (x / h) lo hi.
Proof.
  intros Hh C k Hk. specialize (C k Hk). replace (x / h - IZR k) with ((x - IZR k * h) / h) by (field; lra).
  unfold Rdiv. rewrite Rabs_mult, (Rabs_right (/ h)) by (left; now apply Rinv_0_lt_compat).
  apply Rmult_le_reg_r with h; [auto|]. rewrite Rmult_assoc, Rinv_l by lra. lra.
Qed.

Lemma roma_sum w y lo hi : covers1 (3/2) y lo hi ->
  exists k t q, t = y - IZR k /\ 
  zsum (fun j => w j * roma1 (Rabs (y - IZR j))) lo hi =
    w (k - 1)%Z * ((2 - 3 * t - q) / 6) + w k * ((1 + q) / 3) + w (k + 1)%Z * ((2 + 3 * t - q) / 6).
Proof.
  intros C. destruct (nearest y) as (k & Hk). exists k, (y - IZR k), (sqrt (1 - 3 * (y - IZR k) * (y - IZR k))).
  split; [reflexivity|].
  assert (In' : (lo <= k < hi)%Z).
  { destruct (Z_le_gt_dec lo k), (Z_lt_ge_dec k hi); try lia; exfalso; specialize (C k ltac:(lia));
      unfold Rabs in C; destruct (Rcase_abs _) in C; lra. }
  rewrite (zsum_support _ lo hi (k - 1) (k - 1 + 3)); [|lia|lia|lia|lia| |].
  - rewrite zsum3. replace (k - 1 + 1)%Z with k by lia. replace (k - 1 + 2)%Z with (k + 1)%Z by lia.
    rewrite minus_IZR, plus_IZR. set (t := y - IZR k) in *.
    replace (y - (IZR k - 1)) with (1 + t) by (unfold t; lra). replace (y - (IZR k + 1)) with (- (1 - t)) by (unfold t; lra).
    rewrite Rabs_Ropp, (Rabs_right (1 + t)), (Rabs_right (1 - t)) by lra.
    rewrite (roma1_mid (1 + t)), (roma1_mid (1 - t)) by lra.
    assert (E : roma1 (Rabs t) = (1 + sqrt (1 - 3 * t * t)) / 3).
    { unfold Rabs. destruct (Rcase_abs t); rewrite roma1_in by lra; [|reflexivity].
      replace (1 - 3 * - t * - t) with (1 - 3 * t * t) by ring. reflexivity. }
    rewrite E. replace (1 - 3 * (1 - (1 + t)) * (1 - (1 + t))) with (1 - 3 * t * t) by ring.
    replace (1 - 3 * (1 - (1 - t)) * (1 - (1 - t))) with (1 - 3 * t * t) by ring. field.
  - intros j Hj Hn. destruct (IZR_out _ _ _ Hn) as [L|L]; rewrite ?plus_IZR, ?minus_IZR in L;
      rewrite roma1_out; [ring| |ring|]; unfold Rabs; destruct (Rcase_abs _); lra.
  - intros j Hj Hn. rewrite roma1_out by (now apply C). ring.
Qed.

Lemma peskin_sum w y lo hi : covers1 2 y lo hi ->
  exists k t q, t = y - IZR k /\
  zsum (fun j => w j * peskin1 (Rabs (y - IZR j))) lo hi =
    w (k - 1)%Z * ((3 - 2 * t - q) / 8) + w k * ((3 - 2 * t + q) / 8)
    + w (k + 1)%Z * ((1 + 2 * t + q) / 8) + w (k + 2)%Z * ((1 + 2 * t - q) / 8).
Proof.
  intros C. destruct (floor_of y) as (k & Hk). exists k, (y - IZR k), (sqrt (1 + 4 * (y - IZR k) - 4 * (y - IZR k) * (y - IZR k))).
  split; [reflexivity|].
  assert (In' : (lo <= k < hi)%Z).
  { destruct (Z_le_gt_dec lo k), (Z_lt_ge_dec k hi); try lia; exfalso; specialize (C k ltac:(lia));
      unfold Rabs in C; destruct (Rcase_abs _) in C; lra. }
  rewrite (zsum_support _ lo hi (k - 1) (k - 1 + 4)); [|lia|lia|lia|lia| |].
  - rewrite zsum4. replace (k - 1 + 1)%Z with k by lia. replace (k - 1 + 2)%Z with (k + 1)%Z by lia.
    replace (k - 1 + 3)%Z with (k + 2)%Z by lia. rewrite minus_IZR, !plus_IZR. set (t := y - IZR k) in *.
    replace (y - (IZR k - 1)) with (1 + t) by (unfold t; lra). replace (y - (IZR k + 1)) with (- (1 - t)) by (unfold t; lra).
    replace (y - (IZR k + 2)) with (- (2 - t)) by (unfold t; lra).
    rewrite !Rabs_Ropp, (Rabs_right (1 + t)), (Rabs_right (1 - t)), (Rabs_right t), (Rabs_right (2 - t)) by lra.
    rewrite (peskin1_mid (1 + t)), (peskin1_mid (2 - t)), (peskin1_in t), (peskin1_in (1 - t)) by lra.
    replace (1 + 4 * (1 - t) - 4 * (1 - t) * (1 - t)) with (1 + 4 * t - 4 * t * t) by ring.
    replace (- 7 + 12 * (1 + t) - 4 * (1 + t) * (1 + t)) with (1 + 4 * t - 4 * t * t) by ring.
    replace (- 7 + 12 * (2 - t) - 4 * (2 - t) * (2 - t)) with (1 + 4 * t - 4 * t * t) by ring. field.
  - intros j Hj Hn. destruct (IZR_out _ _ _ Hn) as [L|L]; rewrite ?plus_IZR, ?minus_IZR in L;
      rewrite peskin1_out; [ring| |ring|]; unfold Rabs; destruct (Rcase_abs _); lra.
  - intros j Hj Hn. rewrite peskin1_out by (now apply C). ring.
Qed.

(** Both kernels at once. *)
Lemma getKernel_cases name K w : getKernel name = Ok (K, w) ->
  (name = "ROMA_ET_AL_1999"%string /\ K = Roma_et_al_1999 /\ w = 2%Z /\ radius name = 3/2) \/
  (name = "PESKIN_2002"%string /\ K = Peskin_2002 /\ w = 3%Z /\ radius name = 2).
Proof.
  unfold getKernel, radius. destruct (String.eqb_spec name "ROMA_ET_AL_1999").
  - intros H. injection H as <- <-. left. auto.
  - destruct (String.eqb_spec name "PESKIN_2002"); [|discriminate]. intros H. injection H as <- <-. right. auto.
Qed.

Lemma scaled x h k : 0 < h -> Rabs (x - IZR k * h) / h = Rabs (x / h - IZR k).
Proof.
  intros H. replace (x / h - IZR k) with ((x - IZR k * h) / h) by (field; lra). unfold Rdiv.
  rewrite Rabs_mult, (Rabs_right (/ h)); [reflexivity|]. left. now apply Rinv_0_lt_compat.
Qed.

Lemma kernel_defined name K w r h : getKernel name = Ok (K, w) -> 0 < h -> K r h = Ok (kval K r h) /\ 0 <= kval K r h.
Proof.
  intros HK Hh. unfold kval. destruct (getKernel_cases _ _ _ HK) as [(_ & -> & _)|(_ & -> & _)].
  - rewrite roma_ok by auto. cbn [ok_or]. split; [reflexivity|]. apply Rmult_le_pos; [apply roma1_nonneg, abs_div; auto|].
    left. now apply Rinv_0_lt_compat.
  - rewrite peskin_ok by auto. cbn [ok_or]. split; [reflexivity|]. apply Rmult_le_pos; [apply peskin1_nonneg, abs_div; auto|].
    left. now apply Rinv_0_lt_compat.
Qed.

Lemma kernel_even name K w r h : getKernel name = Ok (K, w) -> K (- r) h = K r h.
Proof.
  intros HK. destruct (getKernel_cases _ _ _ HK) as [(_ & -> & _)|(_ & -> & _)];
    unfold Roma_et_al_1999, Peskin_2002; rewrite Rabs_Ropp; reflexivity.
Qed.

Lemma kernel_out name K w r h : getKernel name = Ok (K, w) -> 0 < h -> radius name * h <= Rabs r -> kval K r h = 0.
Proof.
  intros HK Hh Hr. unfold kval.
  assert (radius name <= Rabs r / h).
  { apply Rmult_le_reg_r with h; [auto|]. unfold Rdiv. rewrite Rmult_assoc, Rinv_l by lra. lra. }
  destruct (getKernel_cases _ _ _ HK) as [(_ & -> & _ & E)|(_ & -> & _ & E)]; rewrite E in *.
  - rewrite roma_ok by auto. cbn [ok_or]. rewrite roma1_out by auto. lra.
  - rewrite peskin_ok by auto. cbn [ok_or]. rewrite peskin1_out by auto. lra.
Qed.

Lemma kernel_in name K w r h : getKernel name = Ok (K, w) -> 0 < h -> Rabs r < radius name * h -> 0 < kval K r h.
Proof.
  intros HK Hh Hr. unfold kval.
  assert (Lt : Rabs r / h < radius name).
  { apply Rmult_lt_reg_r with h; [auto|]. unfold Rdiv. rewrite Rmult_assoc, Rinv_l by lra. lra. }
  pose proof (abs_div r h Hh) as P.
  destruct (getKernel_cases _ _ _ HK) as [(_ & -> & _ & E)|(_ & -> & _ & E)]; rewrite E in *.
  - rewrite roma_ok by auto. cbn [ok_or]. apply Rdiv_lt_0_compat; [|auto]. set (x := Rabs r / h) in *. clearbody x.
    destruct (Rle_dec (1/2) x).
    + rewrite roma1_mid by lra.
      assert (sqrt (1 - 3 * (1 - x) * (1 - x)) < 5 - 3 * x).
      { rewrite <- (sqrt_square (5 - 3 * x)) by lra. apply sqrt_lt_1_alt. split; [nra|].
        assert (0 < (2 * x - 3) * (2 * x - 3)) by (apply Rsqr_pos_lt; lra). nra. }
      lra.
    + rewrite roma1_in by lra. pose proof (sqrt_pos (1 - 3 * x * x)). lra.
  - rewrite peskin_ok by auto. cbn [ok_or]. apply Rdiv_lt_0_compat; [|auto]. set (x := Rabs r / h) in *. clearbody x.
    destruct (Rle_dec 1 x).
    + rewrite peskin1_mid by lra.
      assert (sqrt (- 7 + 12 * x - 4 * x * x) < 5 - 2 * x).
      { rewrite <- (sqrt_square (5 - 2 * x)) by lra. apply sqrt_lt_1_alt. split; [nra|].
        assert (0 < (x - 2) * (x - 2)) by (apply Rsqr_pos_lt; lra). nra. }
      lra.
    + rewrite peskin1_in by lra. pose proof (sqrt_pos (1 + 4 * x - 4 * x * x)). lra.
Qed.

Lemma kernel_zeroth name K w x h lo hi : getKernel name = Ok (K, w) -> 0 < h -> covers (radius name) h x lo hi ->
  zsum (fun k => kval K (x - IZR k * h) h) lo hi = 1 / h.
Proof.
  intros HK Hh C. apply covers_unit in C; auto. unfold kval.
  destruct (getKernel_cases _ _ _ HK) as [(_ & -> & _ & E)|(_ & -> & _ & E)]; rewrite E in *.
  - rewrite (zsum_ext _ (fun k => / h * roma1 (Rabs (x / h - IZR k)))).
    2: { intros k _. rewrite roma_ok by auto. cbn [ok_or]. rewrite scaled by auto. field. lra. }
    destruct (roma_sum (fun _ => / h) _ _ _ C) as (k & t & q & _ & ->). field. lra.
  - rewrite (zsum_ext _ (fun k => / h * peskin1 (Rabs (x / h - IZR k)))).
    2: { intros k _. rewrite peskin_ok by auto. cbn [ok_or]. rewrite scaled by auto. field. lra. }
    destruct (peskin_sum (fun _ => / h) _ _ _ C) as (k & t & q & _ & ->). field. lra.
Qed.

Lemma kernel_first name K w x h lo hi : getKernel name = Ok (K, w) -> 0 < h -> covers (radius name) h x lo hi ->
  zsum (fun k => (x - IZR k * h) * kval K (x - IZR k * h) h) lo hi = 0.
Proof.
  intros HK Hh C. apply covers_unit in C; auto. unfold kval.
  destruct (getKernel_cases _ _ _ HK) as [(_ & -> & _ & E)|(_ & -> & _ & E)]; rewrite E in *.
  - rewrite (zsum_ext _ (fun k => (x / h - IZR k) * roma1 (Rabs (x / h - IZR k)))).
    2: { intros k _. rewrite roma_ok by auto. cbn [ok_or]. rewrite scaled by auto. field. lra. }
    destruct (roma_sum (fun k => x / h - IZR k) _ _ _ C) as (k & t & q & T & ->). rewrite minus_IZR, plus_IZR, <- T.
    replace (x / h - (IZR k - 1)) with (t + 1) by lra. replace (x / h - (IZR k + 1)) with (t - 1) by lra. field.
  - rewrite (zsum_ext _ (fun k => (x / h - IZR k) * peskin1 (Rabs (x / h - IZR k)))).
    2: { intros k _. rewrite peskin_ok by auto. cbn [ok_or]. rewrite scaled by auto. field. lra. }
    destruct (peskin_sum (fun k => x / h - IZR k) _ _ _ C) as (k & t & q & T & ->). rewrite minus_IZR, !plus_IZR, <- T.
    replace (x / h - (IZR k - 1)) with (t + 1) by lra. replace (x / h - (IZR k + 1)) with (t - 1) by lra.
    replace (x / h - (IZR k + 2)) with (t - 2) by lra. field.
Qed.

Lemma peskin_parity x h lo hi (even : bool) : 0 < h -> covers 2 h x lo hi ->
  zsum (fun k => if Bool.eqb (Z.even k) even then kval Peskin_2002 (x - IZR k * h) h else 0) lo hi = 1 / (2 * h).
Proof.
  intros Hh C. apply covers_unit in C; auto. unfold kval.
  rewrite (zsum_ext _ (fun k => (if Bool.eqb (Z.even k) even then / h else 0) * peskin1 (Rabs (x / h - IZR k)))).
  2: { intros k _. rewrite peskin_ok by auto. cbn [ok_or]. rewrite scaled by auto. destruct (Bool.eqb _ _); field; lra. }
  destruct (peskin_sum (fun k => if Bool.eqb (Z.even k) even then / h else 0) _ _ _ C) as (k & t & q & _ & ->).
  rewrite Z.even_sub, !Z.even_add. change (Z.even 1) with false. change (Z.even 2) with true.
  destruct (Z.even k), even; cbn [Bool.eqb]; field; lra.
Qed.
