(** Proofs for C93: rounding errors of the delta kernels. *)
From Coq Require Import ZArith Reals List Lra Lia Bool.
From Flocq Require Import Core BinarySingleNaN Binary Bits Plus_error Relative.
From Verif Require Import Prelude TypesModel DeltaModel RSum DeltaSpec DeltaKernel FloatModel FloatSpec FloatProof KernelModel KernelSpec.
Local Open Scope R_scope.

(** The largest error of one operation whose exact result is at most 32. *)
Definition tick : R := / 2 ^ 47.
Lemma tick_pos : 0 < tick.
Proof. apply Rinv_0_lt_compat, pow_lt; lra. Qed.
Lemma tick_small : tick <= / 2 ^ 20.
Proof. apply Rinv_le; [apply pow_lt; lra|apply pow_step; lia]. Qed.

Definition rnd (x : R) : R := round radix2 (FLT_exp (-1074) 53) (Znearest (fun n => negb (Z.even n))) x.
Lemma rnd_form x : exists e h, Rabs e <= uu /\ Rabs h <= / 2 ^ 1075 /\ rnd x = x * (1 + e) + h.
Proof.
  destruct (error_N_FLT radix2 (-1074) 53 ltac:(lia) (fun n => negb (Z.even n)) x) as (e & h & He & Hh & _ & E).
  exists e, h. split; [|split; [|exact E]].
  - rewrite <- uu_bpow. exact He.
  - replace (/ 2 ^ 1075) with (/ 2 * bpow radix2 (-1074)); [exact Hh|]. change (-1074)%Z with (- Z.of_nat 1074)%Z. rewrite bpow_opp, bpow_nat.
    rewrite <- Rinv_mult. reflexivity.
Qed.
Lemma inv_le n m : (n <= m)%nat -> / 2 ^ m <= / 2 ^ n.
Proof. intros. apply Rinv_le; [apply pow_lt; lra|now apply pow_step]. Qed.
Lemma rnd_tick x : Rabs x <= 32 -> Rabs (rnd x - x) <= tick.
Proof.
  intros Hx. destruct (rnd_form x) as (e & h & He & Hh & ->). replace (x * (1 + e) + h - x) with (x * e + h) by ring.
  eapply Rle_trans; [apply Rabs_triang|]. rewrite Rabs_mult.
  assert (Rabs x * Rabs e <= 32 * uu) by (apply Rmult_le_compat; auto using Rabs_pos).
  assert (32 * uu = / 2 ^ 48) by (unfold uu; replace (2 ^ 53) with (32 * 2 ^ 48) by ring; rewrite Rinv_mult; field; apply pow_nonzero; lra).
  assert (tick = 2 * / 2 ^ 48) by (unfold tick; replace (2 ^ 48) with (2 * 2 ^ 47) by ring; field; apply pow_nonzero; lra).
  pose proof (inv_le 48 1075 ltac:(lia)). lra.
Qed.
Lemma rnd_fits x : Rabs x <= 2 ^ 1002 -> Rlt_bool (Rabs (rnd x)) (bpow radix2 1024) = true.
Proof.
  intros Hx. apply Rlt_bool_true. destruct (rnd_form x) as (e & h & He & Hh & ->). change 1024%Z with (Z.of_nat 1024). rewrite bpow_nat.
  assert (Hu : uu <= 1) by (unfold uu; rewrite <- Rinv_1; apply Rinv_le; [lra|]; apply pow_R1_Rle; lra).
  assert (H1 : Rabs (1 + e) <= 2) by (eapply Rle_trans; [apply Rabs_triang|]; rewrite Rabs_R1; lra).
  assert (Rabs x * Rabs (1 + e) <= 2 ^ 1002 * 2) by (apply Rmult_le_compat; auto using Rabs_pos).
  assert (Hh1 : / 2 ^ 1075 <= 1) by (rewrite <- Rinv_1; apply Rinv_le; [lra|]; apply pow_R1_Rle; lra).
  assert (1 <= 2 ^ 1002) by (apply pow_R1_Rle; lra). pose proof (pow_step 1004 1023 ltac:(lia)).
  assert (2 ^ 1004 = 4 * 2 ^ 1002) by ring. assert (2 ^ 1024 = 2 * 2 ^ 1023) by ring.
  pose proof (Rabs_triang (x * (1 + e)) h). rewrite Rabs_mult in *. lra.
Qed.
Lemma small_fits x : Rabs x <= 32 -> Rabs x <= 2 ^ 1002.
Proof. intros. apply Rle_trans with (1 := H). change 32 with (IZR 32). replace (IZR 32) with (2 ^ 5) by (cbn; lra). apply pow_step; lia. Qed.

Definition fx (x : dbl) (v : R) : Prop := finite x /\ val x = v.
Lemma mul_rnd x y : finite x -> finite y -> Rabs (val x * val y) <= 2 ^ 1002 -> fx (dmul x y) (rnd (val x * val y)).
Proof.
  intros Fx Fy H. pose proof (Bmult_correct 53 1024 eq_refl eq_refl binop_nan_pl64 mode_NE x y) as C.
  change (round radix2 (SpecFloat.fexp 53 1024) (round_mode mode_NE) (B2R 53 1024 x * B2R 53 1024 y)) with (rnd (val x * val y)) in C.
  rewrite (rnd_fits _ H) in C. destruct C as (C1 & C2 & _). split; [|exact C1]. unfold finite in *. rewrite Fx, Fy in C2. exact C2.
Qed.
Lemma add_rnd x y : finite x -> finite y -> Rabs (val x + val y) <= 2 ^ 1002 -> fx (dadd x y) (rnd (val x + val y)).
Proof.
  intros Fx Fy H. pose proof (Bplus_correct 53 1024 eq_refl eq_refl binop_nan_pl64 mode_NE x y Fx Fy) as C.
  change (round radix2 (SpecFloat.fexp 53 1024) (round_mode mode_NE) (B2R 53 1024 x + B2R 53 1024 y)) with (rnd (val x + val y)) in C.
  rewrite (rnd_fits _ H) in C. destruct C as (C1 & C2 & _). split; [exact C2|exact C1].
Qed.
Lemma sub_rnd x y : finite x -> finite y -> Rabs (val x - val y) <= 2 ^ 1002 -> fx (dsub x y) (rnd (val x - val y)).
Proof.
  intros Fx Fy H. pose proof (Bminus_correct 53 1024 eq_refl eq_refl binop_nan_pl64 mode_NE x y Fx Fy) as C.
  change (round radix2 (SpecFloat.fexp 53 1024) (round_mode mode_NE) (B2R 53 1024 x - B2R 53 1024 y)) with (rnd (val x - val y)) in C.
  rewrite (rnd_fits _ H) in C. destruct C as (C1 & C2 & _). split; [exact C2|exact C1].
Qed.
Lemma div_rnd x y : finite x -> val y <> 0 -> Rabs (val x / val y) <= 2 ^ 1002 -> fx (ddiv x y) (rnd (val x / val y)).
Proof.
  intros Fx Hy H. pose proof (Bdiv_correct 53 1024 eq_refl eq_refl binop_nan_pl64 mode_NE x y Hy) as C.
  change (round radix2 (SpecFloat.fexp 53 1024) (round_mode mode_NE) (B2R 53 1024 x / B2R 53 1024 y)) with (rnd (val x / val y)) in C.
  rewrite (rnd_fits _ H) in C. destruct C as (C1 & C2 & _). split; [unfold finite in *; rewrite Fx in C2; exact C2|exact C1].
Qed.
Lemma sqrt_rnd x : finite x -> 0 < val x -> fx (dsqrt x) (rnd (sqrt (val x))).
Proof.
  intros Fx Hx. pose proof (Bsqrt_correct 53 1024 eq_refl eq_refl unop_nan_pl64 mode_NE x) as (C1 & C2 & _).
  split; [|exact C1]. unfold finite, dsqrt. etransitivity; [exact C2|]. destruct x as [s|s|s pl e|s mm ee Hb]; try reflexivity; try discriminate.
  destruct s; [|reflexivity]. exfalso. unfold val in Hx. cbn in Hx. unfold F2R in Hx. cbn in Hx.
  assert (0 < bpow radix2 ee) by apply bpow_gt_0. assert (IZR (Z.neg mm) < 0) by (apply IZR_lt; lia). nra.
Qed.

(** An approximation: a finite double within [e] of [v]. *)
Definition ap (x : dbl) (v e : R) : Prop := finite x /\ Rabs (val x - v) <= e.
Ltac ab := repeat match goal with
  | H : Rabs _ <= _ |- _ => apply Rabs_le_inv in H
  end; try apply Rabs_le.
Lemma ap_of x v w : fx x (rnd v) -> Rabs v <= 32 -> w = v -> ap x w tick.
Proof. intros [F E] H ->. split; [exact F|]. rewrite E. now apply rnd_tick. Qed.
Lemma ap_add x y a b e f : ap x a e -> ap y b f -> Rabs (a + b) + e + f <= 32 -> ap (dadd x y) (a + b) (e + f + tick).
Proof.
  intros [Fx Ex] [Fy Ey] H. assert (S : Rabs (val x + val y) <= 32).
  { replace (val x + val y) with ((a + b) + (val x - a) + (val y - b)) by ring. pose proof (Rabs_triang (a + b + (val x - a)) (val y - b)). pose proof (Rabs_triang (a + b) (val x - a)). lra. }
  destruct (add_rnd x y Fx Fy (small_fits _ S)) as [F E]. split; [exact F|]. rewrite E. pose proof (rnd_tick _ S). ab. split; lra.
Qed.
Lemma ap_sub x y a b e f : ap x a e -> ap y b f -> Rabs (a - b) + e + f <= 32 -> ap (dsub x y) (a - b) (e + f + tick).
Proof.
  intros [Fx Ex] [Fy Ey] H. assert (S : Rabs (val x - val y) <= 32).
  { replace (val x - val y) with ((a - b) + (val x - a) + - (val y - b)) by ring. pose proof (Rabs_triang (a - b + (val x - a)) (- (val y - b))). pose proof (Rabs_triang (a - b) (val x - a)). rewrite Rabs_Ropp in *. lra. }
  destruct (sub_rnd x y Fx Fy (small_fits _ S)) as [F E]. split; [exact F|]. rewrite E. pose proof (rnd_tick _ S). ab. split; lra.
Qed.
Lemma ap_mul x y a b e f A B : ap x a e -> ap y b f -> Rabs a <= A -> Rabs b <= B -> A * B + (A * f + B * e + e * f) <= 32 ->
  ap (dmul x y) (a * b) (A * f + B * e + e * f + tick).
Proof.
  intros [Fx Ex] [Fy Ey] HA HB H.
  assert (D : Rabs (val x * val y - a * b) <= A * f + B * e + e * f).
  { replace (val x * val y - a * b) with (a * (val y - b) + b * (val x - a) + (val x - a) * (val y - b)) by ring.
    eapply Rle_trans; [apply Rabs_triang|]. eapply Rle_trans; [apply Rplus_le_compat_r, Rabs_triang|]. rewrite !Rabs_mult.
    repeat apply Rplus_le_compat; apply Rmult_le_compat; auto using Rabs_pos. }
  assert (S : Rabs (val x * val y) <= 32).
  { replace (val x * val y) with (a * b + (val x * val y - a * b)) by ring. eapply Rle_trans; [apply Rabs_triang|]. rewrite Rabs_mult.
    assert (Rabs a * Rabs b <= A * B) by (apply Rmult_le_compat; auto using Rabs_pos). lra. }
  destruct (mul_rnd x y Fx Fy (small_fits _ S)) as [F E]. split; [exact F|]. rewrite E. pose proof (rnd_tick _ S). ab. split; lra.
Qed.
(** Square roots of numbers that are at least [1/4]. *)
Lemma ap_sqrt x a e : ap x a e -> / 4 <= a <= 16 -> e <= / 16 -> 0 <= e -> ap (dsqrt x) (sqrt a) (2 * e + tick).
Proof.
  intros [Fx Ex] Ha He H0. assert (V : / 16 <= val x <= 17) by (ab; lra).
  destruct (sqrt_rnd x Fx ltac:(lra)) as [F E]. split; [exact F|]. rewrite E.
  assert (S1 : / 4 <= sqrt (val x)) by (replace (/ 4) with (sqrt (/ 16)) by (replace (/ 16) with (/ 4 * / 4) by field; apply sqrt_square; lra); apply sqrt_le_1; lra).
  assert (S2 : / 2 <= sqrt a) by (replace (/ 2) with (sqrt (/ 4)) by (replace (/ 4) with (/ 2 * / 2) by field; apply sqrt_square; lra); apply sqrt_le_1; lra).
  assert (S3 : sqrt (val x) <= 5) by (replace 5 with (sqrt 25) by (replace 25 with (5 * 5) by lra; apply sqrt_square; lra); apply sqrt_le_1; lra).
  assert (D : Rabs (sqrt (val x) - sqrt a) <= 2 * e).
  { assert (Q : (sqrt (val x) - sqrt a) * (sqrt (val x) + sqrt a) = val x - a).
    { replace ((sqrt (val x) - sqrt a) * (sqrt (val x) + sqrt a)) with (sqrt (val x) * sqrt (val x) - sqrt a * sqrt a) by ring. rewrite !sqrt_sqrt by lra. reflexivity. }
    assert (Q2 : Rabs (sqrt (val x) - sqrt a) * (sqrt (val x) + sqrt a) <= e) by (rewrite <- Q, Rabs_mult, (Rabs_pos_eq (_ + _)) in Ex by lra; exact Ex).
    pose proof (Rabs_pos (sqrt (val x) - sqrt a)). nra. }
  pose proof (rnd_tick (sqrt (val x)) ltac:(rewrite Rabs_pos_eq; lra)). ab. split; lra.
Qed.
Lemma ap_int z : (Z.abs z <= 32)%Z -> ap (dofZ z) (IZR z) 0.
Proof.
  intros H. pose proof (binary_normalize_correct 53 1024 eq_refl eq_refl mode_NE z 0 false) as C.
  assert (Ez : F2R (Float radix2 z 0) = IZR z) by (unfold F2R; cbn; lra). rewrite Ez in C.
  assert (Rd : round radix2 (SpecFloat.fexp 53 1024) (round_mode mode_NE) (IZR z) = IZR z).
  { apply round_generic; [typeclasses eauto|]. apply (generic_format_FLT radix2 (-1074) 53). exists (Float radix2 z 0); cbn; [now rewrite <- Ez|lia|lia]. }
  rewrite Rd in C. rewrite Rlt_bool_true in C.
  - destruct C as (C1 & C2 & _). split; [exact C2|]. change (val (dofZ z) = IZR z) in C1. rewrite C1. replace (IZR z - IZR z) with 0 by ring. rewrite Rabs_R0. lra.
  - rewrite <- abs_IZR. apply Rle_lt_trans with 32; [apply IZR_le; exact H|].
    change 1024%Z with (Z.of_nat 1024). rewrite bpow_nat. apply Rlt_le_trans with (2 ^ 6); [cbn; lra|apply pow_step; lia].
Qed.
Lemma ap_exact x : finite x -> ap x (val x) 0.
Proof. intros F. split; [exact F|]. replace (val x - val x) with 0 by ring. rewrite Rabs_R0. lra. Qed.

(** The last division: a number of size at most 8 over [k * dr]. *)
Lemma ap_quot x y a e (k : Z) : ap x a e -> Rabs a + e <= 8 -> 0 <= e -> finite y -> / 2 ^ 500 <= val y <= 2 ^ 500 -> (3 <= k <= 8)%Z ->
  finite (ddiv x (dmul (dofZ k) y)) /\ Rabs (val (ddiv x (dmul (dofZ k) y)) * val y - a / IZR k) <= e + 2 * tick.
Proof.
  intros [Fx Ex] Ha He Fy Hy Hk. destruct (ap_int k ltac:(lia)) as [Fk Ek].
  assert (Vk : val (dofZ k) = IZR k) by (ab; lra).
  assert (Bk : 3 <= IZR k <= 8) by (split; apply IZR_le; lia).
  assert (Py : 0 < / 2 ^ 500) by (apply Rinv_0_lt_compat, pow_lt; lra).
  assert (Q8 : 8 = 2 ^ 3) by (cbn; lra).
  assert (B1 : 0 <= IZR k * val y <= 2 ^ 503).
  { split; [nra|]. replace (2 ^ 503) with (8 * 2 ^ 500) by ring. apply Rmult_le_compat; lra. }
  destruct (mul_rnd (dofZ k) y Fk Fy) as [Fm Em].
  { rewrite Vk, Rabs_pos_eq by lra. apply Rle_trans with (2 ^ 503); [lra|apply pow_step; lia]. }
  rewrite Vk in Em.
  (* the product has only a relative error *)
  assert (Rel : exists d, Rabs d <= uu /\ val (dmul (dofZ k) y) = IZR k * val y * (1 + d)).
  { destruct (relative_error_N_FLT_ex radix2 (-1074) 53 ltac:(lia) (fun n => negb (Z.even n)) (IZR k * val y)) as (d & Hd & E).
    - rewrite Rabs_pos_eq by lra. change (-1074 + 53 - 1)%Z with (- Z.of_nat 1022)%Z. rewrite bpow_opp, bpow_nat. pose proof (inv_le 500 1022 ltac:(lia)). nra.
    - exists d. split; [rewrite <- uu_bpow; exact Hd|]. rewrite Em. exact E. }
  destruct Rel as (d & Hd & Ed). pose proof uu_pos as Hu. assert (Us : uu <= / 2 ^ 50) by (unfold uu; apply inv_le; lia).
  assert (U4 : / 2 ^ 50 <= / 4) by (replace (/ 4) with (/ 2 ^ 2) by (cbn; lra); apply inv_le; lia).
  assert (Dd : - uu <= d <= uu) by (ab; lra).
  assert (Pm : 0 < IZR k * val y * (1 + d)) by (repeat apply Rmult_lt_0_compat; lra).
  assert (Xb : Rabs (val x) <= 8) by (replace (val x) with (a + (val x - a)) by ring; eapply Rle_trans; [apply Rabs_triang|lra]).
  set (q := val x / (IZR k * (1 + d))).
  assert (Pk : 2 <= IZR k * (1 + d)) by nra.
  assert (Qe : val x / val (dmul (dofZ k) y) = q * / val y) by (rewrite Ed; unfold q; field; lra).
  assert (Qb : Rabs q <= 4).
  { unfold q, Rdiv. rewrite Rabs_mult, (Rabs_pos_eq (/ _)) by (left; apply Rinv_0_lt_compat; lra).
    assert (/ (IZR k * (1 + d)) <= / 2) by (apply Rinv_le; lra). assert (0 < / (IZR k * (1 + d))) by (apply Rinv_0_lt_compat; lra). pose proof (Rabs_pos (val x)). nra. }
  assert (Iy : 0 < / val y <= 2 ^ 500).
  { split; [apply Rinv_0_lt_compat; lra|]. rewrite <- (Rinv_inv (2 ^ 500)). apply Rinv_le; lra. }
  destruct (div_rnd x (dmul (dofZ k) y) Fx) as [Fq Eq].
  { rewrite Ed. lra. }
  { rewrite Qe, Rabs_mult, (Rabs_pos_eq (/ val y)) by lra. apply Rle_trans with (4 * 2 ^ 500); [apply Rmult_le_compat; auto using Rabs_pos; lra|].
    replace (4 * 2 ^ 500) with (2 ^ 502) by ring. apply pow_step; lia. }
  split; [exact Fq|]. rewrite Eq, Qe. destruct (rnd_form (q * / val y)) as (g & h & Hg & Hh & ->).
  replace ((q * / val y * (1 + g) + h) * val y - a / IZR k) with ((q - a / IZR k) + q * g + h * val y) by (field; lra).
  assert (T1 : Rabs (q * g) <= 4 * uu) by (rewrite Rabs_mult; apply Rmult_le_compat; auto using Rabs_pos).
  assert (T2 : Rabs (h * val y) <= / 2 ^ 50).
  { rewrite Rabs_mult, (Rabs_pos_eq (val y)) by lra. apply Rle_trans with (/ 2 ^ 1075 * 2 ^ 500); [apply Rmult_le_compat; auto using Rabs_pos; lra|].
    apply Rle_trans with (/ 2 ^ 550 * 2 ^ 500); [apply Rmult_le_compat_r; [left; apply pow_lt; lra|apply inv_le; lia]|].
    right. replace 550%nat with (500 + 50)%nat by reflexivity. rewrite pow_add. field; try (repeat split; apply pow_nonzero; lra). }
  assert (T3 : Rabs (q - a / IZR k) <= e + 8 * uu).
  { replace (q - a / IZR k) with ((val x - a) / IZR k - q * d) by (unfold q; field; lra).
    assert (Rabs ((val x - a) / IZR k) <= e).
    { unfold Rdiv. rewrite Rabs_mult, (Rabs_pos_eq (/ _)) by (left; apply Rinv_0_lt_compat; lra).
      assert (/ IZR k <= 1) by (rewrite <- Rinv_1; apply Rinv_le; lra). assert (0 < / IZR k) by (apply Rinv_0_lt_compat; lra). pose proof (Rabs_pos (val x - a)). nra. }
    assert (Rabs (q * d) <= 4 * uu) by (rewrite Rabs_mult; apply Rmult_le_compat; auto using Rabs_pos).
    eapply Rle_trans; [apply Rabs_triang|]. rewrite Rabs_Ropp. lra. }
  assert (Tk : tick = 8 * / 2 ^ 50) by (unfold tick; replace (2 ^ 50) with (8 * 2 ^ 47) by ring; field; apply pow_nonzero; lra).
  eapply Rle_trans; [apply Rabs_triang|]. eapply Rle_trans; [apply Rplus_le_compat_r, Rabs_triang|]. pose proof tick_pos. lra.
Qed.

Lemma ap_le x v e e' : ap x v e -> e <= e' -> ap x v e'.
Proof. intros [F E] H. split; [exact F|lra]. Qed.
Lemma dlt_spec x y : finite x -> finite y -> dlt x y = true <-> val x < val y.
Proof.
  intros Fx Fy. unfold dlt, b64_compare. rewrite (Bcompare_correct 53 1024 x y Fx Fy). fold (val x) (val y).
  destruct (Rcompare_spec (val x) (val y)); split; intros; try reflexivity; try discriminate; try lra; assumption.
Qed.
Lemma half_val z : (Z.abs z <= 32)%Z -> fx (ddiv (dofZ z) (dofZ 2)) (IZR z / 2).
Proof.
  intros H. destruct (ap_int z H) as [Fz Ez]. destruct (ap_int 2 ltac:(lia)) as [F2 E2].
  assert (Vz : val (dofZ z) = IZR z) by (ab; lra). assert (V2 : val (dofZ 2) = 2) by (ab; lra).
  assert (Bz : Rabs (IZR z) <= 32) by (rewrite <- abs_IZR; apply IZR_le; exact H).
  destruct (div_rnd (dofZ z) (dofZ 2) Fz ltac:(lra)) as [F E].
  { rewrite Vz, V2. apply small_fits. unfold Rdiv. rewrite Rabs_mult, (Rabs_pos_eq (/ 2)) by lra. lra. }
  split; [exact F|]. rewrite E, Vz, V2. unfold rnd. apply round_generic; [typeclasses eauto|].
  apply generic_format_FLT. exists (Float radix2 z (-1)); cbn; [unfold F2R; cbn; lra|lia|lia].
Qed.

(** The distance in cells. *)
Lemma distance r dr : finite r -> finite dr -> / 2 ^ 500 <= val dr <= 2 ^ 500 -> Rabs (val r) <= 2 ^ 500 ->
  let x := ddiv (dabs r) dr in finite x /\ 0 <= val x /\ Rabs (val x - Rabs (val r) / val dr) <= / 2 ^ 53 * (Rabs (val r) / val dr) + / 2 ^ 1075.
Proof.
  intros Fr Fd Hd Hr x. assert (Py : 0 < / 2 ^ 500) by (apply Rinv_0_lt_compat, pow_lt; lra).
  assert (Fa : finite (dabs r)) by (unfold finite, dabs, b64_abs; rewrite is_finite_Babs; exact Fr).
  assert (Va : val (dabs r) = Rabs (val r)) by apply B2R_Babs.
  assert (Iy : 0 < / val dr <= 2 ^ 500) by (split; [apply Rinv_0_lt_compat; lra|rewrite <- (Rinv_inv (2 ^ 500)); apply Rinv_le; lra]).
  assert (Q0 : 0 <= Rabs (val r) / val dr) by (apply Rmult_le_pos; [apply Rabs_pos|lra]).
  destruct (div_rnd (dabs r) dr Fa ltac:(lra)) as [F E].
  { rewrite Va, Rabs_pos_eq by exact Q0. apply Rle_trans with (2 ^ 500 * 2 ^ 500); [apply Rmult_le_compat; auto using Rabs_pos; lra|]. rewrite <- pow_add. apply pow_step; lia. }
  fold x in F, E. rewrite Va in E. split; [exact F|]. split.
  - rewrite E. unfold rnd. rewrite <- (round_0 radix2 (FLT_exp (-1074) 53) (Znearest (fun n => negb (Z.even n)))). assert (P53 : Prec_gt_0 53) by reflexivity. apply round_le; [exact (FLT_exp_valid (-1074) 53)|apply valid_rnd_N|exact Q0].
  - rewrite E. destruct (rnd_form (Rabs (val r) / val dr)) as (e & h & He & Hh & ->). set (q := Rabs (val r) / val dr) in *.
    replace (q * (1 + e) + h - q) with (q * e + h) by ring. eapply Rle_trans; [apply Rabs_triang|]. rewrite Rabs_mult, (Rabs_pos_eq q) by exact Q0. fold uu. 
    assert (q * Rabs e <= q * uu) by (apply Rmult_le_compat_l; assumption). lra.
Qed.

Ltac num := rewrite ?Rabs_R0; ab; cbn; pose proof tick_pos; pose proof tick_small; assert (/ 2 ^ 20 <= / 1024) by (cbn; lra); try split; try nra.

Section X.
Variables (x dr : dbl).
Hypotheses (Fx : finite x) (Fd : finite dr) (Hd : / 2 ^ 500 <= val dr <= 2 ^ 500).
Let X := val x.
Lemma roma_inner : 0 <= X <= / 2 -> let z := ddiv (dadd (dofZ 1) (dsqrt (dadd (dmul (dmul (dofZ (-3)) x) x) (dofZ 1)))) (dmul (dofZ 3) dr) in
  finite z /\ Rabs (val z * val dr - (1 + sqrt (-3 * X * X + 1)) / 3) <= 32 * tick.
Proof.
  intros HX z. pose proof tick_pos as T0. pose proof tick_small as T1. assert (T2 : tick <= / 1024) by (cbn in T1; lra).
  pose proof (ap_exact x Fx) as Ax. fold X in Ax.
  assert (A1 : ap (dmul (dofZ (-3)) x) (-3 * X) tick).
  { eapply ap_le; [apply (ap_mul _ _ (IZR (-3)) X 0 0 3 1 (ap_int (-3) ltac:(lia)) Ax)|]; try (apply Rabs_le; lra); lra. }
  assert (A2 : ap (dmul (dmul (dofZ (-3)) x) x) (-3 * X * X) (2 * tick)).
  { eapply ap_le; [apply (ap_mul _ _ _ X tick 0 2 1 A1 Ax)|]; try (apply Rabs_le; lra); lra. }
  assert (A3 : ap (dadd (dmul (dmul (dofZ (-3)) x) x) (dofZ 1)) (-3 * X * X + 1) (3 * tick)).
  { eapply ap_le; [apply (ap_add _ _ _ 1 (2 * tick) 0 A2 (ap_int 1 ltac:(lia)))|lra]. assert (Rabs (-3 * X * X + 1) <= 4) by (apply Rabs_le; nra). lra. }
  assert (S0 : / 4 <= -3 * X * X + 1 <= 1) by nra.
  assert (A4 := ap_sqrt _ _ _ A3 ltac:(lra) ltac:(lra) ltac:(lra)).
  assert (S1 : 0 <= sqrt (-3 * X * X + 1) <= 1) by (split; [apply sqrt_pos|rewrite <- sqrt_1 at 2; apply sqrt_le_1; lra]).
  assert (A5 : ap (dadd (dofZ 1) (dsqrt (dadd (dmul (dmul (dofZ (-3)) x) x) (dofZ 1)))) (1 + sqrt (-3 * X * X + 1)) (8 * tick)).
  { eapply ap_le; [apply (ap_add _ _ 1 _ 0 _ (ap_int 1 ltac:(lia)) A4)|lra]. rewrite Rabs_pos_eq by lra. lra. }
  destruct (ap_quot _ dr _ _ 3 A5 ltac:(rewrite Rabs_pos_eq by lra; lra) ltac:(lra) Fd Hd ltac:(lia)) as [F E]. split; [exact F|]. unfold z. lra.
Qed.
Lemma roma_outer : / 2 < X <= 3 / 2 ->
  let z := ddiv (dsub (dsub (dofZ 5) (dmul (dofZ 3) x)) (dsqrt (dadd (dmul (dmul (dofZ (-3)) (dsub (dofZ 1) x)) (dsub (dofZ 1) x)) (dofZ 1)))) (dmul (dofZ 6) dr) in
  finite z /\ Rabs (val z * val dr - (5 - 3 * X - sqrt (-3 * (1 - X) * (1 - X) + 1)) / 6) <= 32 * tick.
Proof.
  intros HX z. pose proof tick_pos as T0. pose proof tick_small as T1. assert (T2 : tick <= / 1024) by (cbn in T1; lra).
  pose proof (ap_exact x Fx) as Ax. fold X in Ax.
  assert (A0 : ap (dsub (dofZ 1) x) (1 - X) tick).
  { eapply ap_le; [apply (ap_sub _ _ 1 X 0 0 (ap_int 1 ltac:(lia)) Ax)|lra]. assert (Rabs (1 - X) <= 1) by (apply Rabs_le; lra). lra. }
  assert (A1 : ap (dmul (dofZ (-3)) (dsub (dofZ 1) x)) (-3 * (1 - X)) (4 * tick)).
  { eapply ap_le; [apply (ap_mul _ _ (IZR (-3)) (1 - X) 0 tick 3 1 (ap_int (-3) ltac:(lia)) A0)|]; try (apply Rabs_le; lra); lra. }
  assert (TT : tick * tick <= tick) by nra.
  assert (A2 : ap (dmul (dmul (dofZ (-3)) (dsub (dofZ 1) x)) (dsub (dofZ 1) x)) (-3 * (1 - X) * (1 - X)) (5 * tick)).
  { eapply ap_le; [apply (ap_mul _ _ _ (1 - X) (4 * tick) tick (3 / 2) (/ 2) A1 A0)|]; try (apply Rabs_le; lra); nra. }
  assert (A3 : ap (dadd (dmul (dmul (dofZ (-3)) (dsub (dofZ 1) x)) (dsub (dofZ 1) x)) (dofZ 1)) (-3 * (1 - X) * (1 - X) + 1) (6 * tick)).
  { eapply ap_le; [apply (ap_add _ _ _ 1 (5 * tick) 0 A2 (ap_int 1 ltac:(lia)))|lra]. assert (Rabs (-3 * (1 - X) * (1 - X) + 1) <= 4) by (apply Rabs_le; nra). lra. }
  assert (HQ : 0 <= (X - / 2) * (3 / 2 - X)) by (apply Rmult_le_pos; lra). assert (HP := Rle_0_sqr (1 - X)). unfold Rsqr in HP.
  assert (S0 : / 4 <= -3 * (1 - X) * (1 - X) + 1 <= 1) by (split; lra).
  assert (A4 := ap_sqrt _ _ _ A3 ltac:(lra) ltac:(lra) ltac:(lra)).
  assert (S1 : 0 <= sqrt (-3 * (1 - X) * (1 - X) + 1) <= 1) by (split; [apply sqrt_pos|rewrite <- sqrt_1 at 4; apply sqrt_le_1; lra]).
  assert (A5 : ap (dmul (dofZ 3) x) (3 * X) tick).
  { eapply ap_le; [apply (ap_mul _ _ (IZR 3) X 0 0 3 2 (ap_int 3 ltac:(lia)) Ax)|]; try (apply Rabs_le; lra); lra. }
  assert (A6 : ap (dsub (dofZ 5) (dmul (dofZ 3) x)) (5 - 3 * X) (2 * tick)).
  { eapply ap_le; [apply (ap_sub _ _ 5 _ 0 _ (ap_int 5 ltac:(lia)) A5)|lra]. assert (Rabs (5 - 3 * X) <= 5) by (apply Rabs_le; lra). lra. }
  assert (Bn : Rabs (5 - 3 * X - sqrt (-3 * (1 - X) * (1 - X) + 1)) <= 6) by (apply Rabs_le; lra).
  pose proof (ap_sub _ _ _ _ _ _ A6 A4 ltac:(lra)) as A7.
  destruct (ap_quot _ dr _ _ 6 A7 ltac:(lra) ltac:(lra) Fd Hd ltac:(lia)) as [F E]. split; [exact F|]. unfold z. lra.
Qed.
Lemma peskin_inner : 0 <= X <= 1 ->
  let z := ddiv (dadd (dsub (dofZ 3) (dmul (dofZ 2) x)) (dsqrt (dsub (dadd (dofZ 1) (dmul (dofZ 4) x)) (dmul (dmul (dofZ 4) x) x)))) (dmul (dofZ 8) dr) in
  finite z /\ Rabs (val z * val dr - (3 - 2 * X + sqrt (1 + 4 * X - 4 * X * X)) / 8) <= 32 * tick.
Proof.
  intros HX z. pose proof tick_pos as T0. pose proof tick_small as T1. assert (T2 : tick <= / 1024) by (cbn in T1; lra).
  pose proof (ap_exact x Fx) as Ax. fold X in Ax.
  assert (A1 : ap (dmul (dofZ 4) x) (4 * X) tick).
  { eapply ap_le; [apply (ap_mul _ _ (IZR 4) X 0 0 4 1 (ap_int 4 ltac:(lia)) Ax)|]; try (apply Rabs_le; lra); lra. }
  assert (A2 : ap (dmul (dmul (dofZ 4) x) x) (4 * X * X) (2 * tick)).
  { eapply ap_le; [apply (ap_mul _ _ _ X tick 0 4 1 A1 Ax)|]; try (apply Rabs_le; lra); lra. }
  assert (A3 : ap (dadd (dofZ 1) (dmul (dofZ 4) x)) (1 + 4 * X) (2 * tick)).
  { eapply ap_le; [apply (ap_add _ _ 1 _ 0 _ (ap_int 1 ltac:(lia)) A1)|lra]. assert (Rabs (1 + 4 * X) <= 5) by (apply Rabs_le; lra). lra. }
  assert (A4 : ap (dsub (dadd (dofZ 1) (dmul (dofZ 4) x)) (dmul (dmul (dofZ 4) x) x)) (1 + 4 * X - 4 * X * X) (5 * tick)).
  { eapply ap_le; [apply (ap_sub _ _ _ _ _ _ A3 A2)|lra]. assert (Rabs (1 + 4 * X - 4 * X * X) <= 5) by (apply Rabs_le; nra). lra. }
  assert (S0 : 1 <= 1 + 4 * X - 4 * X * X <= 4) by nra.
  assert (A5 := ap_sqrt _ _ _ A4 ltac:(lra) ltac:(lra) ltac:(lra)).
  assert (S1 : 0 <= sqrt (1 + 4 * X - 4 * X * X) <= 2).
  { split; [apply sqrt_pos|]. replace 2 with (sqrt 4) at 1 by (replace 4 with (2 * 2) by lra; apply sqrt_square; lra). apply sqrt_le_1; lra. }
  assert (A6 : ap (dmul (dofZ 2) x) (2 * X) tick).
  { eapply ap_le; [apply (ap_mul _ _ (IZR 2) X 0 0 2 1 (ap_int 2 ltac:(lia)) Ax)|]; try (apply Rabs_le; lra); lra. }
  assert (A7 : ap (dsub (dofZ 3) (dmul (dofZ 2) x)) (3 - 2 * X) (2 * tick)).
  { eapply ap_le; [apply (ap_sub _ _ 3 _ 0 _ (ap_int 3 ltac:(lia)) A6)|lra]. assert (Rabs (3 - 2 * X) <= 3) by (apply Rabs_le; lra). lra. }
  assert (Bn : Rabs (3 - 2 * X + sqrt (1 + 4 * X - 4 * X * X)) <= 6) by (apply Rabs_le; lra).
  pose proof (ap_add _ _ _ _ _ _ A7 A5 ltac:(lra)) as A8.
  destruct (ap_quot _ dr _ _ 8 A8 ltac:(lra) ltac:(lra) Fd Hd ltac:(lia)) as [F E]. split; [exact F|]. unfold z. lra.
Qed.
Lemma peskin_outer : 1 <= X <= 2 ->
  let z := ddiv (dsub (dsub (dofZ 5) (dmul (dofZ 2) x)) (dsqrt (dsub (dadd (dofZ (-7)) (dmul (dofZ 12) x)) (dmul (dmul (dofZ 4) x) x)))) (dmul (dofZ 8) dr) in
  finite z /\ Rabs (val z * val dr - (5 - 2 * X - sqrt (-7 + 12 * X - 4 * X * X)) / 8) <= 32 * tick.
Proof.
  intros HX z. pose proof tick_pos as T0. pose proof tick_small as T1. assert (T2 : tick <= / 1024) by (cbn in T1; lra).
  pose proof (ap_exact x Fx) as Ax. fold X in Ax.
  assert (A1 : ap (dmul (dofZ 4) x) (4 * X) tick).
  { eapply ap_le; [apply (ap_mul _ _ (IZR 4) X 0 0 4 2 (ap_int 4 ltac:(lia)) Ax)|]; try (apply Rabs_le; lra); lra. }
  assert (A2 : ap (dmul (dmul (dofZ 4) x) x) (4 * X * X) (3 * tick)).
  { eapply ap_le; [apply (ap_mul _ _ _ X tick 0 8 2 A1 Ax)|]; try (apply Rabs_le; lra); lra. }
  assert (A0 : ap (dmul (dofZ 12) x) (12 * X) tick).
  { eapply ap_le; [apply (ap_mul _ _ (IZR 12) X 0 0 12 2 (ap_int 12 ltac:(lia)) Ax)|]; try (apply Rabs_le; lra); lra. }
  assert (A3 : ap (dadd (dofZ (-7)) (dmul (dofZ 12) x)) (-7 + 12 * X) (2 * tick)).
  { eapply ap_le; [apply (ap_add _ _ (IZR (-7)) _ 0 _ (ap_int (-7) ltac:(lia)) A0)|lra]. assert (Rabs (-7 + 12 * X) <= 17) by (apply Rabs_le; lra). lra. }
  assert (A4 : ap (dsub (dadd (dofZ (-7)) (dmul (dofZ 12) x)) (dmul (dmul (dofZ 4) x) x)) (-7 + 12 * X - 4 * X * X) (6 * tick)).
  { eapply ap_le; [apply (ap_sub _ _ _ _ _ _ A3 A2)|lra]. assert (Rabs (-7 + 12 * X - 4 * X * X) <= 5) by (apply Rabs_le; nra). lra. }
  assert (HQ : 0 <= (X - 1) * (2 - X)) by (apply Rmult_le_pos; lra). assert (HP := Rle_0_sqr (2 * X - 3)). unfold Rsqr in HP.
  assert (S0 : 1 <= -7 + 12 * X - 4 * X * X <= 4) by (split; lra).
  assert (A5 := ap_sqrt _ _ _ A4 ltac:(lra) ltac:(lra) ltac:(lra)).
  assert (S1 : 0 <= sqrt (-7 + 12 * X - 4 * X * X) <= 2).
  { split; [apply sqrt_pos|]. replace 2 with (sqrt 4) at 1 by (replace 4 with (2 * 2) by lra; apply sqrt_square; lra). apply sqrt_le_1; lra. }
  assert (A6 : ap (dmul (dofZ 2) x) (2 * X) tick).
  { eapply ap_le; [apply (ap_mul _ _ (IZR 2) X 0 0 2 2 (ap_int 2 ltac:(lia)) Ax)|]; try (apply Rabs_le; lra); lra. }
  assert (A7 : ap (dsub (dofZ 5) (dmul (dofZ 2) x)) (5 - 2 * X) (2 * tick)).
  { eapply ap_le; [apply (ap_sub _ _ 5 _ 0 _ (ap_int 5 ltac:(lia)) A6)|lra]. assert (Rabs (5 - 2 * X) <= 3) by (apply Rabs_le; lra). lra. }
  assert (Bn : Rabs (5 - 2 * X - sqrt (-7 + 12 * X - 4 * X * X)) <= 6) by (apply Rabs_le; lra).
  pose proof (ap_sub _ _ _ _ _ _ A7 A5 ltac:(lra)) as A8.
  destruct (ap_quot _ dr _ _ 8 A8 ltac:(lra) ltac:(lra) Fd Hd ltac:(lia)) as [F E]. split; [exact F|]. unfold z. lra.
Qed.
End X.

(** * The kernels vary slowly *)
Definition lip (f : R -> R) (a b : R) : Prop := forall x y, a <= x <= y -> y <= b -> Rabs (f x - f y) <= y - x.
Lemma lip_glue f a b c : lip f a b -> lip f b c -> lip f a c.
Proof.
  intros H1 H2 x y Hx Hy. destruct (Rle_dec y b) as [Y|Y]; [apply H1; lra|]. destruct (Rle_dec b x) as [X|X]; [apply H2; lra|].
  pose proof (H1 x b ltac:(lra) ltac:(lra)). pose proof (H2 b y ltac:(lra) ltac:(lra)).
  replace (f x - f y) with ((f x - f b) + (f b - f y)) by ring. eapply Rle_trans; [apply Rabs_triang|]. lra.
Qed.
Lemma sqrt_lip a b : / 4 <= a -> / 4 <= b -> Rabs (sqrt a - sqrt b) <= Rabs (a - b).
Proof.
  intros Ha Hb. assert (S : forall c, / 4 <= c -> / 2 <= sqrt c).
  { intros c Hc. replace (/ 2) with (sqrt (/ 4)) by (replace (/ 4) with (/ 2 * / 2) by field; apply sqrt_square; lra). apply sqrt_le_1; lra. }
  pose proof (S a Ha). pose proof (S b Hb).
  assert (Q : (sqrt a - sqrt b) * (sqrt a + sqrt b) = a - b).
  { replace ((sqrt a - sqrt b) * (sqrt a + sqrt b)) with (sqrt a * sqrt a - sqrt b * sqrt b) by ring. rewrite !sqrt_sqrt by lra. reflexivity. }
  rewrite <- Q, Rabs_mult, (Rabs_pos_eq (_ + _)) by lra. pose proof (Rabs_pos (sqrt a - sqrt b)). nra.
Qed.
Lemma prod_lip d s k : 0 <= d -> 0 <= k -> - 1 <= s <= 1 -> Rabs (k * (d * s)) <= k * d.
Proof. intros. rewrite !Rabs_mult, (Rabs_pos_eq k), (Rabs_pos_eq d) by lra. apply Rmult_le_compat_l; [lra|]. assert (Rabs s <= 1) by (apply Rabs_le; lra). pose proof (Rabs_pos s). nra. Qed.
Lemma sq_bound x a b : a <= x <= b -> 0 <= (x - a) * (b - x).
Proof. intros. apply Rmult_le_pos; lra. Qed.
Lemma roma_lip m : lip roma1 0 m.
Proof.
  apply (lip_glue _ 0 (1/2)); [|apply (lip_glue _ (1/2) (3/2))]; intros x y Hx Hy.
  - rewrite !roma1_in by lra. pose proof (sq_bound x 0 (1/2) ltac:(lra)). pose proof (sq_bound y 0 (1/2) ltac:(lra)).
    pose proof (sqrt_lip (1 - 3 * x * x) (1 - 3 * y * y) ltac:(lra) ltac:(lra)) as S.
    pose proof (prod_lip (y - x) (x + y) 3 ltac:(lra) ltac:(lra) ltac:(lra)).
    replace (1 - 3 * x * x - (1 - 3 * y * y)) with (3 * ((y - x) * (x + y))) in S by ring.
    assert (B : Rabs (sqrt (1 - 3 * x * x) - sqrt (1 - 3 * y * y)) <= 3 * (y - x)) by lra. ab. split; lra.
  - rewrite !roma1_mid by lra. pose proof (sq_bound x (1/2) (3/2) ltac:(lra)). pose proof (sq_bound y (1/2) (3/2) ltac:(lra)).
    pose proof (sqrt_lip (1 - 3 * (1 - x) * (1 - x)) (1 - 3 * (1 - y) * (1 - y)) ltac:(lra) ltac:(lra)) as S.
    pose proof (prod_lip (y - x) (x + y - 2) 3 ltac:(lra) ltac:(lra) ltac:(lra)).
    replace (1 - 3 * (1 - x) * (1 - x) - (1 - 3 * (1 - y) * (1 - y))) with (3 * ((y - x) * (x + y - 2))) in S by ring.
    assert (B : Rabs (sqrt (1 - 3 * (1 - x) * (1 - x)) - sqrt (1 - 3 * (1 - y) * (1 - y))) <= 3 * (y - x)) by lra. ab. split; lra.
  - rewrite !roma1_out by lra. ab. split; lra.
Qed.
Lemma peskin_lip m : lip peskin1 0 m.
Proof.
  apply (lip_glue _ 0 1); [|apply (lip_glue _ 1 2)]; intros x y Hx Hy.
  - rewrite !peskin1_in by lra. pose proof (sq_bound x 0 1 ltac:(lra)). pose proof (sq_bound y 0 1 ltac:(lra)).
    pose proof (sqrt_lip (1 + 4 * x - 4 * x * x) (1 + 4 * y - 4 * y * y) ltac:(lra) ltac:(lra)) as S.
    pose proof (prod_lip (y - x) (x + y - 1) 4 ltac:(lra) ltac:(lra) ltac:(lra)).
    replace (1 + 4 * x - 4 * x * x - (1 + 4 * y - 4 * y * y)) with (4 * ((y - x) * (x + y - 1))) in S by ring.
    assert (B : Rabs (sqrt (1 + 4 * x - 4 * x * x) - sqrt (1 + 4 * y - 4 * y * y)) <= 4 * (y - x)) by lra. ab. split; lra.
  - rewrite !peskin1_mid by lra. pose proof (sq_bound x 1 2 ltac:(lra)). pose proof (sq_bound y 1 2 ltac:(lra)).
    pose proof (sqrt_lip (- 7 + 12 * x - 4 * x * x) (- 7 + 12 * y - 4 * y * y) ltac:(lra) ltac:(lra)) as S.
    pose proof (prod_lip (y - x) (x + y - 3) 4 ltac:(lra) ltac:(lra) ltac:(lra)).
    replace (- 7 + 12 * x - 4 * x * x - (- 7 + 12 * y - 4 * y * y)) with (4 * ((y - x) * (x + y - 3))) in S by ring.
    assert (B : Rabs (sqrt (- 7 + 12 * x - 4 * x * x) - sqrt (- 7 + 12 * y - 4 * y * y)) <= 4 * (y - x)) by lra. ab. split; lra.
  - rewrite !peskin1_out by lra. ab. split; lra.
Qed.
Lemma kernel_moved f x X : lip f 0 100 -> (forall z, 2 <= z -> f z = 0) -> 0 <= x -> 0 <= X ->
  Rabs (X - x) <= / 2 ^ 53 * x + / 2 ^ 53 -> Rabs (f X - f x) <= tick.
Proof.
  intros L Z Hx HX H. assert (U : 0 < uu <= / 2 ^ 53) by (unfold uu; split; [apply Rinv_0_lt_compat, pow_lt|]; lra). pose proof tick_pos.
  assert (T : 64 * / 2 ^ 53 = tick) by (unfold tick; replace (2 ^ 53) with (64 * 2 ^ 47) by ring; field; apply pow_nonzero; lra).
  pose proof (inv_le 53 1075 ltac:(lia)). pose proof (inv_le 20 53 ltac:(lia)). assert (/ 2 ^ 20 <= / 1024) by (cbn; lra).
  set (t := / 2 ^ 53) in *.
  destruct (Rle_dec x 3) as [A|A].
  - assert (t * x <= t * 3) by (apply Rmult_le_compat_l; lra). assert (B : Rabs (X - x) <= 4 * t) by lra. assert (X <= 4) by (ab; lra).
    destruct (Rle_dec x X) as [C|C].
    + pose proof (L x X ltac:(lra) ltac:(lra)) as D. rewrite Rabs_minus_sym. ab. split; lra.
    + pose proof (L X x ltac:(lra) ltac:(lra)) as D. ab. split; lra.
  - assert (t * x <= / 1024 * x) by (apply Rmult_le_compat_r; lra). assert (2 <= X) by (ab; lra). rewrite (Z X), (Z x) by lra. ab. split; lra.
Qed.

(** * Both kernels *)
Lemma int_val z : (Z.abs z <= 32)%Z -> fx (dofZ z) (IZR z).
Proof. intros H. destruct (ap_int z H) as [F E]. split; [exact F|]. ab. lra. Qed.
Lemma dlt_cases x y : finite x -> finite y -> (dlt x y = true /\ val x < val y) \/ (dlt x y = false /\ val y <= val x).
Proof.
  intros Fx Fy. pose proof (dlt_spec x y Fx Fy) as S. destruct (dlt x y); [left|right]; (split; [reflexivity|]); [now apply S|].
  apply Rnot_lt_le. intros C. apply S in C. discriminate.
Qed.
Lemma dle_cases x y : finite x -> finite y -> (dle x y = true /\ val x <= val y) \/ (dle x y = false /\ val y < val x).
Proof.
  intros Fx Fy. pose proof (dle_spec x y Fx Fy) as S. destruct (dle x y); [left|right]; (split; [reflexivity|]); [now apply S|].
  apply Rnot_le_lt. intros C. apply S in C. discriminate.
Qed.
Section K.
Variables (r dr : dbl).
Hypotheses (Fr : finite r) (Fd : finite dr) (Hd : / 2 ^ 500 <= val dr <= 2 ^ 500) (Hr : Rabs (val r) <= 2 ^ 500).
Let x := ddiv (dabs r) dr.
Lemma roma_at : finite (Roma_dbl r dr) /\ Rabs (val (Roma_dbl r dr) * val dr - roma1 (val x)) <= 32 * tick.
Proof.
  destruct (distance r dr Fr Fd Hd Hr) as (Fx & X0 & _). fold x in Fx, X0. pose proof tick_pos.
  destruct (half_val 3 ltac:(lia)) as [F3 V3]. destruct (half_val 1 ltac:(lia)) as [F1 V1]. fold d3_2 in F3, V3. fold d1_2 in F1, V1.
  unfold Roma_dbl. fold x.
  destruct (dlt_cases d3_2 x F3 Fx) as [[-> H1]|[-> H1]].
  - destruct (int_val 0 ltac:(lia)) as [F0 V0]. split; [exact F0|]. rewrite V0, roma1_out by lra. ab. split; lra.
  - destruct (dlt_cases d1_2 x F1 Fx) as [[-> H2]|[-> H2]]; cbv [andb].
    + destruct (dle_cases x d3_2 Fx F3) as [[-> H3]|[-> H3]]; [|lra]. rewrite roma1_mid by lra.
      replace (1 - 3 * (1 - val x) * (1 - val x)) with (-3 * (1 - val x) * (1 - val x) + 1) by ring. apply roma_outer; auto; lra.
    + rewrite roma1_in by lra. replace (1 - 3 * val x * val x) with (-3 * val x * val x + 1) by ring. apply roma_inner; auto; lra.
Qed.
Lemma peskin_at : finite (Peskin_dbl r dr) /\ Rabs (val (Peskin_dbl r dr) * val dr - peskin1 (val x)) <= 32 * tick.
Proof.
  destruct (distance r dr Fr Fd Hd Hr) as (Fx & X0 & _). fold x in Fx, X0. pose proof tick_pos.
  destruct (int_val 0 ltac:(lia)) as [F0 V0]. destruct (int_val 1 ltac:(lia)) as [F1 V1]. destruct (int_val 2 ltac:(lia)) as [F2 V2].
  unfold Peskin_dbl. fold x.
  destruct (dle_cases (dofZ 0) x F0 Fx) as [[-> H1]|[-> H1]]; [|lra]. cbv [andb].
  destruct (dle_cases x (dofZ 1) Fx F1) as [[-> H2]|[-> H2]].
  - rewrite peskin1_in by lra. apply peskin_inner; auto; lra.
  - destruct (dle_cases (dofZ 1) x F1 Fx) as [[-> H3]|[-> H3]]; [|lra].
    destruct (dle_cases x (dofZ 2) Fx F2) as [[-> H4]|[-> H4]].
    + rewrite peskin1_mid by lra. apply peskin_outer; auto; lra.
    + split; [exact F0|]. rewrite V0, peskin1_out by lra. ab. split; lra.
Qed.
Lemma scaled_error f z : finite z /\ Rabs (val z * val dr - f (val x)) <= 32 * tick -> lip f 0 100 -> (forall t, 2 <= t -> f t = 0) ->
  finite z /\ Rabs (val z - f (Rabs (val r) / val dr) / val dr) <= / 2 ^ 41 / val dr.
Proof.
  intros [F E] L Z. split; [exact F|]. destruct (distance r dr Fr Fd Hd Hr) as (Fx & X0 & X1). fold x in Fx, X0, X1.
  assert (Py : 0 < / 2 ^ 500) by (apply Rinv_0_lt_compat, pow_lt; lra). assert (P : 0 < val dr) by lra.
  assert (Q0 : 0 <= Rabs (val r) / val dr) by (apply Rmult_le_pos; [apply Rabs_pos|left; now apply Rinv_0_lt_compat]).
  pose proof (inv_le 53 1075 ltac:(lia)) as X2.
  pose proof (kernel_moved f _ _ L Z Q0 X0 ltac:(eapply Rle_trans; [exact X1|apply Rplus_le_compat_l; exact X2])) as M. set (q := Rabs (val r) / val dr) in *. pose proof tick_pos.
  assert (T : / 2 ^ 41 = 64 * tick) by (unfold tick; replace (2 ^ 47) with (64 * 2 ^ 41) by ring; field; apply pow_nonzero; lra).
  assert (S : Rabs (val z * val dr - f q) <= / 2 ^ 41).
  { rewrite T. replace (val z * val dr - f q) with ((val z * val dr - f (val x)) + (f (val x) - f q)) by ring. eapply Rle_trans; [apply Rabs_triang|]. lra. }
  replace (val z - f q / val dr) with ((val z * val dr - f q) * / val dr) by (field; lra).
  rewrite Rabs_mult, (Rabs_pos_eq (/ val dr)) by (left; now apply Rinv_0_lt_compat).
  apply Rmult_le_compat_r; [left; now apply Rinv_0_lt_compat|exact S].
Qed.
(** Rounding keeps the comparison with a radius. *)
Lemma far c : fx c (val c) -> val c * val dr <= Rabs (val r) -> val c <= val x.
Proof.
  intros [Fc _] H. assert (Py : 0 < / 2 ^ 500) by (apply Rinv_0_lt_compat, pow_lt; lra).
  assert (Fa : finite (dabs r)) by (unfold finite, dabs, b64_abs; rewrite is_finite_Babs; exact Fr).
  assert (Va : val (dabs r) = Rabs (val r)) by apply B2R_Babs.
  assert (Iy : 0 < / val dr <= 2 ^ 500) by (split; [apply Rinv_0_lt_compat; lra|rewrite <- (Rinv_inv (2 ^ 500)); apply Rinv_le; lra]).
  assert (Q0 : 0 <= Rabs (val r) / val dr) by (apply Rmult_le_pos; [apply Rabs_pos|lra]).
  destruct (div_rnd (dabs r) dr Fa ltac:(lra)) as [F E].
  { rewrite Va, Rabs_pos_eq by exact Q0. apply Rle_trans with (2 ^ 500 * 2 ^ 500); [apply Rmult_le_compat; auto using Rabs_pos; lra|]. rewrite <- pow_add. apply pow_step; lia. }
  fold x in E. rewrite E, Va. assert (P53 : Prec_gt_0 53) by reflexivity.
  apply round_ge_generic; [exact (FLT_exp_valid (-1074) 53)|apply valid_rnd_N|exact (generic_format_B2R 53 1024 c)|].
  apply Rmult_le_reg_r with (val dr); [lra|]. unfold Rdiv. rewrite Rmult_assoc, Rinv_l by lra. lra.
Qed.
Lemma zero_over n k : fx n 0 -> (3 <= k <= 8)%Z -> val (ddiv n (dmul (dofZ k) dr)) = 0.
Proof.
  intros [Fn Vn] Hk. assert (Py : 0 < / 2 ^ 500) by (apply Rinv_0_lt_compat, pow_lt; lra).
  assert (A : ap n 0 0) by (split; [exact Fn|rewrite Vn; ab; split; lra]).
  unfold ddiv, b64_div. destruct n as [s|s|s pl e|s m ex e]; try discriminate.
  - destruct (dmul (dofZ k) dr); reflexivity.
  - exfalso. unfold val, B2R in Vn. apply eq_0_F2R in Vn. destruct s; discriminate.
Qed.
Lemma same_dbl a b : finite a -> finite b -> val a = val b -> val a <> 0 -> a = b.
Proof.
  intros Fa Fb E N. apply (B2R_inj 53 1024); [| |exact E].
  - destruct a; try discriminate; [exfalso; now apply N|reflexivity].
  - destruct b; try discriminate; [exfalso; apply N; now rewrite E|reflexivity].
Qed.
Lemma roma_far : 3 / 2 * val dr <= Rabs (val r) -> val (Roma_dbl r dr) = 0.
Proof.
  intros H. destruct (distance r dr Fr Fd Hd Hr) as (Fx & X0 & _). fold x in Fx, X0.
  destruct (half_val 3 ltac:(lia)) as [F3 V3]. destruct (half_val 1 ltac:(lia)) as [F1 V1]. fold d3_2 in F3, V3. fold d1_2 in F1, V1.
  pose proof (far d3_2 (conj F3 eq_refl) ltac:(rewrite V3; exact H)) as G. unfold Roma_dbl. fold x.
  destruct (dlt_cases d3_2 x F3 Fx) as [[-> H1]|[-> H1]]; [apply (int_val 0); lia|].
  assert (Ex : x = d3_2) by (apply same_dbl; auto; lra). rewrite Ex.
  replace (dlt d1_2 d3_2 && dle d3_2 d3_2)%bool with true by (vm_compute; reflexivity).
  apply zero_over; [|lia]. split; vm_compute; reflexivity.
Qed.
Lemma peskin_far : 2 * val dr <= Rabs (val r) -> val (Peskin_dbl r dr) = 0.
Proof.
  intros H. destruct (distance r dr Fr Fd Hd Hr) as (Fx & X0 & _). fold x in Fx, X0.
  destruct (int_val 0 ltac:(lia)) as [F0 V0]. destruct (int_val 1 ltac:(lia)) as [F1 V1]. destruct (int_val 2 ltac:(lia)) as [F2 V2].
  pose proof (far (dofZ 2) (conj F2 eq_refl) ltac:(rewrite V2; exact H)) as G. unfold Peskin_dbl. fold x.
  destruct (dle_cases (dofZ 0) x F0 Fx) as [[-> H1]|[-> H1]]; [|lra]. cbv [andb].
  destruct (dle_cases x (dofZ 1) Fx F1) as [[-> H2]|[-> H2]]; [lra|].
  destruct (dle_cases (dofZ 1) x F1 Fx) as [[-> H3]|[-> H3]]; [|lra].
  destruct (dle_cases x (dofZ 2) Fx F2) as [[-> H4]|[-> H4]]; [|exact V0].
  assert (Ex : x = dofZ 2) by (apply same_dbl; auto; lra). rewrite Ex.
  apply zero_over; [|lia]. split; vm_compute; reflexivity.
Qed.
End K.

Lemma lip_all f a b h : 0 < h -> (forall B, lip f 0 B) -> Rabs (f (Rabs a / h) - f (Rabs b / h)) <= Rabs (a - b) / h.
Proof.
  intros Hh L. assert (I : 0 < / h) by now apply Rinv_0_lt_compat.
  assert (D : Rabs (Rabs a / h - Rabs b / h) <= Rabs (a - b) / h).
  { replace (Rabs a / h - Rabs b / h) with ((Rabs a - Rabs b) * / h) by (field; lra). rewrite Rabs_mult, (Rabs_pos_eq (/ h)) by lra.
    apply Rmult_le_compat_r; [lra|apply Rabs_triang_inv2]. }
  assert (A : 0 <= Rabs a / h) by (apply Rmult_le_pos; [apply Rabs_pos|lra]). assert (B : 0 <= Rabs b / h) by (apply Rmult_le_pos; [apply Rabs_pos|lra]).
  destruct (Rle_dec (Rabs a / h) (Rabs b / h)) as [C|C].
  - pose proof (L (Rabs b / h) (Rabs a / h) (Rabs b / h) ltac:(lra) ltac:(lra)). ab. lra.
  - pose proof (L (Rabs a / h) (Rabs b / h) (Rabs a / h) ltac:(lra) ltac:(lra)) as E. rewrite Rabs_minus_sym in E. rewrite (Rabs_pos_eq (_ - _)) in D by lra. lra.
Qed.
Lemma zsum_close f g a b e : (a <= b)%Z -> (forall k, (a <= k < b)%Z -> Rabs (f k - g k) <= e) -> Rabs (zsum f a b - zsum g a b) <= IZR (b - a) * e.
Proof.
  intros H. replace b with (a + Z.of_nat (Z.to_nat (b - a)))%Z by lia. generalize (Z.to_nat (b - a)) as n. clear. induction n as [|n IH]; intros H.
  - rewrite !zsum_nil by lia. replace (a + Z.of_nat 0 - a)%Z with 0%Z by lia. rewrite Rminus_0_r, Rabs_R0. lra.
  - replace (a + Z.of_nat (S n))%Z with (a + Z.of_nat n + 1)%Z in * by lia. rewrite !zsum_snoc' by lia.
    pose proof (IH ltac:(intros; apply H; lia)) as I. pose proof (H (a + Z.of_nat n)%Z ltac:(lia)) as J.
    replace (a + Z.of_nat n + 1 - a)%Z with (a + Z.of_nat n - a + 1)%Z by lia. rewrite plus_IZR.
    match goal with |- Rabs (?p + ?q - (?u + ?v)) <= _ => replace (p + q - (u + v)) with ((p - u) + (q - v)) by ring end.
    eapply Rle_trans; [apply Rabs_triang|]. lra.
Qed.

(** * The product over the directions *)
Lemma roma_le1 x : 0 <= x -> 0 <= roma1 x <= 1.
Proof.
  intros H. split; [now apply roma1_nonneg|]. destruct (Rle_dec x (1/2)) as [A|A]; [|destruct (Rle_dec x (3/2)) as [B|B]].
  - rewrite roma1_in by lra. assert (sqrt (1 - 3 * x * x) <= 1) by (apply sqrt_le_of; [lra|]; pose proof (Rle_0_sqr x) as S; unfold Rsqr in S; lra). lra.
  - rewrite roma1_mid by lra. pose proof (sqrt_pos (1 - 3 * (1 - x) * (1 - x))). lra.
  - rewrite roma1_out by lra. lra.
Qed.
Lemma peskin_le1 x : 0 <= x -> 0 <= peskin1 x <= 1.
Proof.
  intros H. split; [now apply peskin1_nonneg|]. destruct (Rle_dec x 1) as [A|A]; [|destruct (Rle_dec x 2) as [B|B]].
  - rewrite peskin1_in by lra. assert (sqrt (1 + 4 * x - 4 * x * x) <= 2) by (apply sqrt_le_of; [lra|]; pose proof (Rle_0_sqr (2 * x - 1)) as S; unfold Rsqr in S; lra). lra.
  - rewrite peskin1_mid by lra. pose proof (sqrt_pos (- 7 + 12 * x - 4 * x * x)). lra.
  - rewrite peskin1_out by lra. lra.
Qed.
Lemma sub_near s t : finite s -> finite t -> Rabs (val s) <= 2 ^ 400 -> Rabs (val t) <= 2 ^ 400 ->
  finite (dsub s t) /\ Rabs (val (dsub s t) - (val s - val t)) <= / 2 ^ 53 * Rabs (val s - val t) + / 2 ^ 1075 /\ Rabs (val (dsub s t)) <= 2 ^ 500.
Proof.
  intros Fs Ft Hs Ht. assert (B : Rabs (val s - val t) <= 2 ^ 401).
  { replace (2 ^ 401) with (2 ^ 400 + 2 ^ 400) by (replace (2 ^ 401) with (2 * 2 ^ 400) by ring; lra). unfold Rminus. eapply Rle_trans; [apply Rabs_triang|]. rewrite Rabs_Ropp. lra. }
  pose proof (pow_step 401 1002 ltac:(lia)). destruct (sub_rnd s t Fs Ft ltac:(lra)) as [F E]. split; [exact F|].
  assert (D : Rabs (val (dsub s t) - (val s - val t)) <= / 2 ^ 53 * Rabs (val s - val t) + / 2 ^ 1075).
  { rewrite E. destruct (rnd_form (val s - val t)) as (e & h & He & Hh & ->). set (q := val s - val t) in *.
    replace (q * (1 + e) + h - q) with (q * e + h) by ring. eapply Rle_trans; [apply Rabs_triang|]. rewrite Rabs_mult. fold uu.
    assert (Rabs q * Rabs e <= Rabs q * uu) by (apply Rmult_le_compat_l; [apply Rabs_pos|assumption]). lra. }
  split; [exact D|]. pose proof (inv_le 0 53 ltac:(lia)) as I1. pose proof (inv_le 0 1075 ltac:(lia)) as I2. rewrite pow_O, Rinv_1 in I1, I2.
  assert (/ 2 ^ 53 * Rabs (val s - val t) <= 1 * 2 ^ 401) by (apply Rmult_le_compat; auto using Rabs_pos; left; apply Rinv_0_lt_compat, pow_lt; lra).
  replace (val (dsub s t)) with ((val (dsub s t) - (val s - val t)) + (val s - val t)) by ring. eapply Rle_trans; [apply Rabs_triang|].
  pose proof (pow_step 403 500 ltac:(lia)). assert (2 ^ 403 = 4 * 2 ^ 401) by ring. assert (1 <= 2 ^ 401) by (apply pow_R1_Rle; lra). lra.
Qed.
Lemma weight f Kd s t h : (forall r, finite r -> Rabs (val r) <= 2 ^ 500 -> finite (Kd r h) /\ Rabs (val (Kd r h) - f (Rabs (val r) / val h) / val h) <= / 2 ^ 41 / val h) ->
  lip f 0 100 -> (forall z, 2 <= z -> f z = 0) -> finite s -> finite t -> Rabs (val s) <= 2 ^ 400 -> Rabs (val t) <= 2 ^ 400 -> / 2 ^ 100 <= val h <= 2 ^ 100 ->
  finite (Kd (dsub s t) h) /\ Rabs (val (Kd (dsub s t) h) * val h - f (Rabs (val s - val t) / val h)) <= / 2 ^ 40.
Proof.
  intros HK L Z Fs Ft Hs Ht Hh. destruct (sub_near s t Fs Ft Hs Ht) as (Fr & Er & Br). destruct (HK _ Fr Br) as [F E]. split; [exact F|].
  set (r := val (dsub s t)) in *. set (q := val s - val t) in *. set (v := val (Kd (dsub s t) h)) in *.
  assert (P0 : 0 < / 2 ^ 100) by (apply Rinv_0_lt_compat, pow_lt; lra). assert (P : 0 < val h) by lra. assert (I : 0 < / val h) by now apply Rinv_0_lt_compat.
  assert (E1 : Rabs (v * val h - f (Rabs r / val h)) <= / 2 ^ 41).
  { replace (v * val h - f (Rabs r / val h)) with ((v - f (Rabs r / val h) / val h) * val h) by (field; lra). rewrite Rabs_mult, (Rabs_pos_eq (val h)) by lra.
    apply Rmult_le_reg_r with (/ val h); [exact I|]. rewrite Rmult_assoc, Rinv_r, Rmult_1_r by lra. exact E. }
  assert (I2 : / val h <= 2 ^ 100) by (rewrite <- (Rinv_inv (2 ^ 100)); apply Rinv_le; lra).
  assert (M : Rabs (f (Rabs r / val h) - f (Rabs q / val h)) <= tick).
  { apply kernel_moved; auto; try (apply Rmult_le_pos; [apply Rabs_pos|lra]).
    replace (Rabs r / val h - Rabs q / val h) with ((Rabs r - Rabs q) * / val h) by (field; lra). rewrite Rabs_mult, (Rabs_pos_eq (/ val h)) by lra.
    apply Rle_trans with ((/ 2 ^ 53 * Rabs q + / 2 ^ 1075) * / val h); [apply Rmult_le_compat_r; [lra|]; eapply Rle_trans; [apply Rabs_triang_inv2|exact Er]|].
    rewrite Rmult_plus_distr_r. unfold Rdiv. rewrite Rmult_assoc. apply Rplus_le_compat_l.
    apply Rle_trans with (/ 2 ^ 1075 * 2 ^ 100); [apply Rmult_le_compat_l; [left; apply Rinv_0_lt_compat, pow_lt; lra|lra]|].
    replace 1075%nat with (100 + 975)%nat by lia. rewrite pow_add, Rinv_mult. replace (/ 2 ^ 100 * / 2 ^ 975 * 2 ^ 100) with (/ 2 ^ 975) by (field; split; apply pow_nonzero; lra). apply inv_le. lia. }
  assert (T : / 2 ^ 41 = 64 * tick) by (unfold tick; replace (2 ^ 47) with (64 * 2 ^ 41) by ring; field; apply pow_nonzero; lra).
  assert (T' : / 2 ^ 40 = 128 * tick) by (unfold tick; replace (2 ^ 47) with (128 * 2 ^ 40) by ring; field; apply pow_nonzero; lra). pose proof tick_pos.
  replace (v * val h - f (Rabs q / val h)) with ((v * val h - f (Rabs r / val h)) + (f (Rabs r / val h) - f (Rabs q / val h))) by ring.
  eapply Rle_trans; [apply Rabs_triang|]. lra.
Qed.
Lemma product phi v H h A p e : finite phi -> finite v -> Rabs (val phi * H - A) <= e -> Rabs (val v * h - p) <= / 2 ^ 40 -> 0 <= A <= 1 -> 0 <= p <= 1 -> 0 <= e <= / 8 ->
  / 2 ^ 300 <= H <= 2 ^ 300 -> / 2 ^ 100 <= h <= 2 ^ 100 -> finite (dmul phi v) /\ Rabs (val (dmul phi v) * (H * h) - A * p) <= e + / 2 ^ 39.
Proof.
  intros Fp Fv EA Ep HA Hp He HH Hh.
  assert (P3 : 0 < / 2 ^ 300) by (apply Rinv_0_lt_compat, pow_lt; lra). assert (P1 : 0 < / 2 ^ 100) by (apply Rinv_0_lt_compat, pow_lt; lra).
  assert (N39 : / 2 ^ 39 = 2 * / 2 ^ 40) by (replace (2 ^ 40) with (2 * 2 ^ 39) by ring; field; apply pow_nonzero; lra).
  assert (N53 : uu <= / 8 * / 2 ^ 40).
  { unfold uu. replace (/ 8 * / 2 ^ 40) with (/ 2 ^ 43) by (replace (2 ^ 43) with (8 * 2 ^ 40) by ring; field; apply pow_nonzero; lra). apply inv_le. lia. }
  pose proof (inv_le 20 40 ltac:(lia)) as N20. assert (N : / 2 ^ 40 <= / 1024) by (cbn in N20 |- *; lra). set (n := / 2 ^ 40) in *.
  assert (n0 : 0 < n) by (apply Rinv_0_lt_compat, pow_lt; lra).
  assert (IH : 0 < / H <= 2 ^ 300) by (split; [apply Rinv_0_lt_compat; lra|rewrite <- (Rinv_inv (2 ^ 300)); apply Rinv_le; lra]).
  assert (Ih : 0 < / h <= 2 ^ 100) by (split; [apply Rinv_0_lt_compat; lra|rewrite <- (Rinv_inv (2 ^ 100)); apply Rinv_le; lra]).
  set (a := val phi * H) in *. set (b := val v * h) in *.
  assert (Ba : Rabs a <= 2) by (ab; split; lra). assert (Bb : Rabs b <= 2) by (ab; split; lra).
  assert (Eab : val phi * val v = a * b * (/ H * / h)) by (unfold a, b; field; lra).
  assert (Bab : Rabs (a * b) <= 4) by (rewrite Rabs_mult; replace 4 with (2 * 2) by lra; apply Rmult_le_compat; auto using Rabs_pos).
  destruct (mul_rnd phi v Fp Fv) as [F E].
  { rewrite Eab, Rabs_mult, (Rabs_pos_eq (/ H * / h)) by (apply Rmult_le_pos; lra).
    apply Rle_trans with (4 * (2 ^ 300 * 2 ^ 100)); [apply Rmult_le_compat; auto using Rabs_pos; [apply Rmult_le_pos; lra|apply Rmult_le_compat; lra]|].
    replace 4 with (2 ^ 2) by (cbn; lra). rewrite <- !pow_add. apply pow_step. lia. }
  split; [exact F|]. rewrite E, Eab. destruct (rnd_form (a * b * (/ H * / h))) as (u & w & Hu & Hw & ->).
  replace ((a * b * (/ H * / h) * (1 + u) + w) * (H * h) - A * p) with ((a * b - A * p) + a * b * u + w * (H * h)) by (field; lra).
  assert (W : Rabs (w * (H * h)) <= / 8 * n).
  { rewrite Rabs_mult, (Rabs_pos_eq (H * h)) by (apply Rmult_le_pos; lra).
    apply Rle_trans with (/ 2 ^ 1075 * (2 ^ 300 * 2 ^ 100)); [apply Rmult_le_compat; auto using Rabs_pos; [apply Rmult_le_pos; lra|apply Rmult_le_compat; lra]|].
    replace (/ 8 * n) with (/ 2 ^ 43) by (unfold n; replace (2 ^ 43) with (8 * 2 ^ 40) by ring; field; apply pow_nonzero; lra).
    rewrite <- pow_add. change (300 + 100)%nat with 400%nat. replace 1075%nat with (400 + 675)%nat by lia. rewrite pow_add, Rinv_mult.
    replace (/ 2 ^ 400 * / 2 ^ 675 * 2 ^ 400) with (/ 2 ^ 675) by (field; split; apply pow_nonzero; lra). apply inv_le. lia. }
  assert (U : Rabs (a * b * u) <= / 2 * n) by (rewrite Rabs_mult; apply Rle_trans with (4 * uu); [apply Rmult_le_compat; auto using Rabs_pos|lra]).
  assert (D : Rabs (a * b - A * p) <= n + e + / 8 * n).
  { replace (a * b - A * p) with (A * (b - p) + p * (a - A) + (a - A) * (b - p)) by ring.
    eapply Rle_trans; [apply Rabs_triang|]. eapply Rle_trans; [apply Rplus_le_compat_r, Rabs_triang|]. rewrite !Rabs_mult, (Rabs_pos_eq A), (Rabs_pos_eq p) by lra.
    assert (A * Rabs (b - p) <= 1 * n) by (apply Rmult_le_compat; auto using Rabs_pos; lra).
    assert (p * Rabs (a - A) <= 1 * e) by (apply Rmult_le_compat; auto using Rabs_pos; lra).
    assert (Rabs (a - A) * Rabs (b - p) <= / 8 * n) by (apply Rmult_le_compat; auto using Rabs_pos; lra). lra. }
  eapply Rle_trans; [apply Rabs_triang|]. eapply Rle_trans; [apply Rplus_le_compat_r, Rabs_triang|]. lra.
Qed.
Section P.
Variables (f : R -> R) (K : kernel) (Kd : dbl -> dbl -> dbl).
Hypotheses (HK : forall r h, 0 < h -> K r h = Ok (f (Rabs r / h) / h))
  (HD : forall r h, plain_width h -> finite r -> Rabs (val r) <= 2 ^ 500 -> finite (Kd r h) /\ Rabs (val (Kd r h) - f (Rabs (val r) / val h) / val h) <= / 2 ^ 41 / val h)
  (L : lip f 0 100) (Z2 : forall z, 2 <= z -> f z = 0) (F1 : forall z, 0 <= z -> 0 <= f z <= 1).
Definition ratio (s t h : dbl) : R := f (Rabs (val s - val t) / val h).
Lemma ratio_unit s t h : 0 < val h -> 0 <= ratio s t h <= 1.
Proof. intros P. apply F1. apply Rmult_le_pos; [apply Rabs_pos|left; now apply Rinv_0_lt_compat]. Qed.
Lemma width_positive h : plain_width h -> 0 < val h.
Proof. intros [_ H]. assert (0 < / 2 ^ 100) by (apply Rinv_0_lt_compat, pow_lt; lra). lra. Qed.
Lemma next phi H A e s t h : finite phi -> Rabs (val phi * H - A) <= e -> 0 <= A <= 1 -> 0 <= e <= / 8 -> / 2 ^ 300 <= H <= 2 ^ 300 ->
  near_origin s -> near_origin t -> plain_width h ->
  finite (dmul phi (Kd (dsub s t) h)) /\ Rabs (val (dmul phi (Kd (dsub s t) h)) * (H * val h) - A * ratio s t h) <= e + / 2 ^ 39 /\ 0 <= A * ratio s t h <= 1.
Proof.
  intros Fp EA HA He HH [Fs Bs] [Ft Bt] Wh. pose proof (ratio_unit s t h (width_positive h Wh)) as U. pose proof Wh as [Fh Bh].
  destruct (weight f Kd s t h ltac:(intros; now apply HD) L Z2 Fs Ft Bs Bt Bh) as [Fv Ev].
  destruct (product phi _ H (val h) A (ratio s t h) e Fp Fv EA Ev HA U He HH Bh) as [F E]. split; [exact F|]. split; [exact E|].
  split; [apply Rmult_le_pos; lra|]. replace 1 with (1 * 1) by lra. apply Rmult_le_compat; lra.
Qed.
Lemma widen H h n : (n <= 2)%nat -> / 2 ^ (100 * n) <= H <= 2 ^ (100 * n) -> / 2 ^ 100 <= h <= 2 ^ 100 -> / 2 ^ (100 * S n) <= H * h <= 2 ^ (100 * S n).
Proof.
  intros _ A B. replace (100 * S n)%nat with (100 * n + 100)%nat by lia. rewrite pow_add, Rinv_mult.
  assert (0 < / 2 ^ (100 * n)) by (apply Rinv_0_lt_compat, pow_lt; lra). assert (0 < / 2 ^ 100) by (apply Rinv_0_lt_compat, pow_lt; lra). split; apply Rmult_le_compat; lra.
Qed.
Lemma narrow H n : (n <= 3)%nat -> / 2 ^ (100 * n) <= H <= 2 ^ (100 * n) -> / 2 ^ 300 <= H <= 2 ^ 300.
Proof. intros Hn A. pose proof (inv_le (100 * n) 300 ltac:(lia)). pose proof (pow_step (100 * n) 300 ltac:(lia)). lra. Qed.
Fixpoint dbl_prod (phi : dbl) (l : list (dbl * dbl * dbl)) : dbl :=
  match l with [] => phi | stw :: l' => dbl_prod (dmul phi (Kd (dsub (fst (fst stw)) (snd (fst stw))) (snd stw))) l' end.
Fixpoint ex_prod (A : R) (l : list (dbl * dbl * dbl)) : R :=
  match l with [] => A | stw :: l' => ex_prod (A * ratio (fst (fst stw)) (snd (fst stw)) (snd stw)) l' end.
Fixpoint vol_prod (H : R) (l : list (dbl * dbl * dbl)) : R := match l with [] => H | stw :: l' => vol_prod (H * val (snd stw)) l' end.
Lemma prod_close l : forall n phi H A, (n + length l <= 3)%nat -> Forall (fun stw => near_origin (fst (fst stw)) /\ near_origin (snd (fst stw)) /\ plain_width (snd stw)) l ->
  finite phi -> Rabs (val phi * H - A) <= INR n * / 2 ^ 39 -> 0 <= A <= 1 -> / 2 ^ (100 * n) <= H <= 2 ^ (100 * n) ->
  finite (dbl_prod phi l) /\ Rabs (val (dbl_prod phi l) * vol_prod H l - ex_prod A l) <= INR (n + length l) * / 2 ^ 39.
Proof.
  assert (S8 : 3 * / 2 ^ 39 <= / 8) by (cbn; lra). assert (P39 : 0 < / 2 ^ 39) by (apply Rinv_0_lt_compat, pow_lt; lra).
  induction l as [|[[s t] h] l IH]; intros n phi H A Hn Hl Fp EA HA HH; cbn [dbl_prod ex_prod vol_prod length fst snd] in *.
  - rewrite Nat.add_0_r. auto.
  - inversion Hl as [|? ? (Ns & Nt & Wh) Hl']; subst. cbn [fst snd] in *.
    assert (In3 : 0 <= INR n <= 3) by (split; [apply pos_INR|]; replace 3 with (INR 3) by (cbn; lra); apply le_INR; lia).
    assert (He : 0 <= INR n * / 2 ^ 39 <= / 8) by (split; [apply Rmult_le_pos; lra|]; apply Rle_trans with (3 * / 2 ^ 39); [apply Rmult_le_compat_r; lra|exact S8]).
    destruct (next phi H A _ s t h Fp EA HA He (narrow H n ltac:(lia) HH) Ns Nt Wh) as (F & E & U).
    destruct (IH (S n) _ (H * val h) (A * ratio s t h) ltac:(lia) Hl' F) as [G1 G2]; [rewrite S_INR; lra|exact U|apply widen; [lia|exact HH|apply Wh]|].
    split; [exact G1|]. replace (n + S (length l))%nat with (S n + length l)%nat by lia. exact G2.
Qed.
End P.
