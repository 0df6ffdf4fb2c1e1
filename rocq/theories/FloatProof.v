From Coq Require Import ZArith Reals List Lra Lia Bool.
From Flocq Require Import Core BinarySingleNaN Binary Bits Plus_error Relative.
From Verif Require Import FloatModel FloatSpec.
Import ListNotations.
Local Open Scope R_scope.

Definition uu : R := / 2 ^ 53.

Lemma uu_pos : 0 < uu.
Proof. apply Rinv_0_lt_compat. apply pow_lt; lra. Qed.

Lemma uu_eps : eps = 2 * uu.
Proof. unfold eps, uu. replace (2 ^ 53) with (2 * 2 ^ 52) by ring. field; try (apply pow_nonzero; lra). Qed.

Lemma bpow_nat : forall n, bpow radix2 (Z.of_nat n) = 2 ^ n.
Proof. intros n. rewrite (bpow_powerRZ radix2). change (IZR radix2) with 2. now rewrite <- pow_powerRZ. Qed.

Lemma uu_bpow : / 2 * bpow radix2 (- (53) + 1) = uu.
Proof.
  unfold uu. replace (- (53) + 1)%Z with (- Z.of_nat 52)%Z by reflexivity. rewrite bpow_opp, bpow_nat. replace (2 ^ 53) with (2 * 2 ^ 52) by ring.
  field; try (apply pow_nonzero; lra).
Qed.

Lemma pow_step : forall n m, (n <= m)%nat -> 2 ^ n <= 2 ^ m.
Proof. intros. apply Rle_pow; [lra|assumption]. Qed.

(** A rounded value well below the overflow threshold does not overflow. *)
Lemma below : forall x e r, Rabs e <= uu -> r = x * (1 + e) -> Rabs x <= 2 ^ 1002 -> Rlt_bool (Rabs r) (bpow radix2 1024) = true.
Proof.
  intros x e r He -> Hx. apply Rlt_bool_true. rewrite Rabs_mult. change 1024%Z with (Z.of_nat 1024). rewrite bpow_nat.
  assert (Hu : uu <= 1). { unfold uu. rewrite <- Rinv_1. apply Rinv_le; [lra|]. apply pow_R1_Rle; lra. }
  assert (H1 : Rabs (1 + e) <= 2). { apply Rle_trans with (Rabs 1 + Rabs e); [apply Rabs_triang|]. rewrite Rabs_R1. lra. }
  apply Rle_lt_trans with (2 ^ 1002 * 2).
  - apply Rmult_le_compat; auto using Rabs_pos.
  - replace (2 ^ 1002 * 2) with (2 ^ 1003) by (rewrite Rmult_comm; reflexivity). apply Rlt_pow; [lra|lia].
Qed.

Lemma u_weaker : forall e, Rabs e <= u_ro radix2 53 / (1 + u_ro radix2 53) -> Rabs e <= uu.
Proof.
  intros e H. change (u_ro radix2 53) with (/ 2 * bpow radix2 (- (53) + 1)) in H. rewrite uu_bpow in H. pose proof uu_pos.
  apply Rle_trans with (1 := H). apply Rmult_le_reg_r with (1 + uu); [lra|]. unfold Rdiv. rewrite Rmult_assoc, Rinv_l by lra. nra.
Qed.

(** One addition: a relative error of at most [uu]. *)
Lemma add_correct : forall x y, finite x -> finite y -> Rabs (val x + val y) <= 2 ^ 1002 ->
  finite (dadd x y) /\ exists e, Rabs e <= uu /\ val (dadd x y) = (val x + val y) * (1 + e).
Proof.
  intros x y Fx Fy Hb.
  destruct (@FLT_plus_error_N_ex radix2 (-1074)%Z 53%Z eq_refl (fun n => negb (Z.even n)) (val x) (val y)) as (e & He & E);
    [apply (generic_format_B2R 53 1024)|apply (generic_format_B2R 53 1024)|].
  pose proof (u_weaker e He) as He'.
  pose proof (Bplus_correct 53 1024 eq_refl eq_refl binop_nan_pl64 mode_NE x y Fx Fy) as H.
  change (round radix2 (SpecFloat.fexp 53 1024) (round_mode mode_NE) (B2R 53 1024 x + B2R 53 1024 y))
    with (round radix2 (FLT_exp (-1074) 53) (Znearest (fun n => negb (Z.even n))) (val x + val y)) in H.
  rewrite E, (below _ e _ He' eq_refl Hb) in H. destruct H as (H1 & H2 & _). split; [exact H2|]. exists e. split; [exact He'|exact H1].
Qed.

Lemma pow_u_ge1 : forall n, 1 <= (1 + uu) ^ n.
Proof. intros n. apply pow_R1_Rle. pose proof uu_pos. lra. Qed.

(** The errors of [n] roundings add up to at most [n * eps]. *)
Lemma growth : forall n, INR n <= 2 ^ 52 -> (1 + uu) ^ n - 1 <= INR n * eps.
Proof.
  intros n Hn. pose proof uu_pos as Hu.
  assert (Hs : INR n * uu <= / 2).
  { unfold uu. apply Rmult_le_reg_r with (2 ^ 53); [apply pow_lt; lra|]. rewrite Rmult_assoc, Rinv_l by (apply pow_nonzero; lra).
    replace (/ 2 * 2 ^ 53) with (2 ^ 52) by (replace (2 ^ 53) with (2 * 2 ^ 52) by ring; field). lra. }
  assert (HB : forall k, 1 - INR k * uu <= (1 - uu) ^ k).
  { assert (Hu1 : uu <= 1). { unfold uu. rewrite <- Rinv_1. apply Rinv_le; [lra|]. apply pow_R1_Rle; lra. }
    induction k as [|k IH]; [simpl; lra|]. rewrite S_INR. cbn [pow].
    apply Rle_trans with ((1 - uu) * (1 - INR k * uu)); [pose proof (pos_INR k); nra|]. apply Rmult_le_compat_l; lra. }
  assert (HP : (1 + uu) ^ n * (1 - uu) ^ n <= 1).
  { rewrite <- Rpow_mult_distr. replace ((1 + uu) * (1 - uu)) with (1 - uu * uu) by ring.
    replace 1 with (1 ^ n) at 2 by apply pow1. apply pow_incr. assert (uu <= 1) by (unfold uu; rewrite <- Rinv_1; apply Rinv_le; [lra|]; apply pow_R1_Rle; lra). nra. }
  specialize (HB n). pose proof (pow_u_ge1 n) as H1. set (x := (1 + uu) ^ n) in *. set (a := INR n * uu) in *.
  assert (Ha : 0 <= a) by (apply Rmult_le_pos; [apply pos_INR|lra]).
  assert (Hx : x * (1 - a) <= 1) by (apply Rle_trans with (2 := HP); apply Rmult_le_compat_l; lra).
  replace (INR n * eps) with (2 * a) by (rewrite uu_eps; unfold a; ring).
  assert (x <= 2) by nra. nra.
Qed.

Lemma growth_le2 : forall n, INR n <= 2 ^ 52 -> (1 + uu) ^ n <= 2.
Proof.
  intros n Hn. pose proof (growth n Hn). assert (INR n * eps <= 1).
  { unfold eps. apply Rmult_le_reg_r with (2 ^ 52); [apply pow_lt; lra|]. rewrite Rmult_assoc, Rinv_l by (apply pow_nonzero; lra). lra. }
  lra.
Qed.

(** One more term: the sum [a] is off by a factor [q] of its size [s]. *)
Lemma one_more : forall a x s q b y e, Rabs (a - x) <= (q - 1) * s -> Rabs x <= s -> Rabs b <= y -> 1 <= q -> 0 <= s -> Rabs e <= uu ->
  Rabs ((a + b) * (1 + e) - (x + b)) <= (q * (1 + uu) - 1) * (s + y).
Proof.
  intros a x s q b y e Ha Hx Hb Hq Hs He. pose proof uu_pos.
  replace ((a + b) * (1 + e) - (x + b)) with ((a - x) * (1 + e) + e * (x + b)) by ring.
  assert (H1 : Rabs (1 + e) <= 1 + uu). { apply Rle_trans with (Rabs 1 + Rabs e); [apply Rabs_triang|]. rewrite Rabs_R1. lra. }
  assert (Hxb : Rabs (x + b) <= s + y) by (apply Rle_trans with (1 := Rabs_triang _ _); lra).
  apply Rle_trans with (1 := Rabs_triang _ _). rewrite !Rabs_mult.
  assert (Rabs (a - x) * Rabs (1 + e) <= (q - 1) * s * (1 + uu)) by (apply Rmult_le_compat; auto using Rabs_pos).
  assert (Rabs e * Rabs (x + b) <= uu * (s + y)) by (apply Rmult_le_compat; auto using Rabs_pos).
  assert (0 <= y) by (apply Rle_trans with (2 := Hb); apply Rabs_pos).
  assert (0 <= (q - 1) * (1 + uu) * y) by (apply Rmult_le_pos; [apply Rmult_le_pos|]; lra). lra.
Qed.

Lemma le_1001 : 2 * 2 ^ 1000 + 2 ^ 1000 <= 2 ^ 1002.
Proof. replace (2 ^ 1002) with (4 * 2 ^ 1000) by (change (2 ^ 1002) with (2 * (2 * 2 ^ 1000)); ring). assert (0 < 2 ^ 1000) by (apply pow_lt; lra). lra. Qed.

Lemma size_of : forall a x s q, Rabs (a - x) <= (q - 1) * s -> Rabs x <= s -> Rabs a <= q * s.
Proof. intros. replace a with ((a - x) + x) by ring. apply Rle_trans with (1 := Rabs_triang _ _). lra. Qed.

(* ------------------------------------------------------------ the clock *)

Definition csize (n : nat) (t0 dt : dbl) : R := Rabs (val t0) + INR n * Rabs (val dt).

Lemma csize_step : forall n t0 dt, csize (S n) t0 dt = csize n t0 dt + Rabs (val dt).
Proof. intros. unfold csize. rewrite S_INR. ring. Qed.

Lemma csize_pos : forall n t0 dt, 0 <= csize n t0 dt.
Proof. intros. unfold csize. pose proof (Rabs_pos (val t0)). pose proof (Rabs_pos (val dt)). pose proof (pos_INR n). nra. Qed.

Lemma csize_mono : forall m n t0 dt, (m <= n)%nat -> csize m t0 dt <= csize n t0 dt.
Proof. intros. unfold csize. apply le_INR in H. pose proof (Rabs_pos (val dt)). nra. Qed.

Lemma exact_size : forall n t0 dt, Rabs (exact_time n t0 dt) <= csize n t0 dt.
Proof.
  intros. unfold exact_time, csize. apply Rle_trans with (1 := Rabs_triang _ _). rewrite Rabs_mult, (Rabs_right (INR n)) by (apply Rle_ge, pos_INR). lra.
Qed.

Lemma ordinary_shorter : forall m n t0 dt, (m <= n)%nat -> ordinary_run n t0 dt -> ordinary_run m t0 dt.
Proof.
  intros m n t0 dt Hm (F0 & Fd & Hn & Hb). split; [exact F0|split; [exact Fd|split]].
  - apply Rle_trans with (2 := Hn). now apply le_INR.
  - apply Rle_trans with (2 := Hb). now apply (csize_mono m n).
Qed.

Lemma clock_sharp : forall n t0 dt, ordinary_run n t0 dt ->
  finite (clock n t0 dt) /\ Rabs (val (clock n t0 dt) - exact_time n t0 dt) <= ((1 + uu) ^ n - 1) * csize n t0 dt.
Proof.
  induction n as [|n IH]; intros t0 dt H.
  - destruct H as (F0 & _). split; [exact F0|]. unfold exact_time. cbn [clock INR pow]. replace (val t0 - (val t0 + 0 * val dt)) with 0 by ring. rewrite Rabs_R0. lra.
  - destruct (IH t0 dt (ordinary_shorter n (S n) t0 dt ltac:(lia) H)) as [Fc Hc]. pose proof (ordinary_shorter n (S n) t0 dt ltac:(lia) H) as (_ & _ & Hn & Hb').
    destruct H as (F0 & Fd & HSn & Hb). pose proof (size_of _ _ _ _ Hc (exact_size n t0 dt)) as Hsz.
    assert (Hn2 : (1 + uu) ^ n <= 2) by (apply growth_le2; apply Rle_trans with (1 := Hn); apply pow_step; lia).
    pose proof (csize_pos n t0 dt) as Hp.
    fold (csize (S n) t0 dt) in Hb. rewrite csize_step in Hb. fold (csize n t0 dt) in Hb'.
    destruct (add_correct (clock n t0 dt) dt Fc Fd) as (Fa & e & He & E).
    { apply Rle_trans with (1 := Rabs_triang _ _). pose proof (Rabs_pos (val dt)). apply Rle_trans with (2 * 2 ^ 1000 + 2 ^ 1000); [|apply le_1001].
      assert ((1 + uu) ^ n * csize n t0 dt <= 2 * csize n t0 dt) by (apply Rmult_le_compat_r; lra). lra. }
    split; [exact Fa|]. cbn [clock]. rewrite E. replace (exact_time (S n) t0 dt) with (exact_time n t0 dt + val dt) by (unfold exact_time; rewrite S_INR; ring).
    rewrite csize_step. replace ((1 + uu) ^ S n) with ((1 + uu) ^ n * (1 + uu)) by (cbn [pow]; ring).
    apply one_more with (s := csize n t0 dt); auto using exact_size, pow_u_ge1. lra.
Qed.

Lemma clock_close : forall n t0 dt, ordinary_run n t0 dt ->
  finite (clock n t0 dt) /\ Rabs (val (clock n t0 dt) - exact_time n t0 dt) <= drift n t0 dt.
Proof.
  intros n t0 dt H. destruct (clock_sharp n t0 dt H) as [F Hc]. split; [exact F|]. apply Rle_trans with (1 := Hc).
  destruct H as (_ & _ & Hn & _). unfold drift. fold (csize n t0 dt). apply Rmult_le_compat_r; [apply csize_pos|]. apply growth.
  apply Rle_trans with (1 := Hn). apply pow_step. lia.
Qed.

Lemma clock_split : forall m n t0 dt, clock (m + n) t0 dt = clock n (clock m t0 dt) dt.
Proof. intros m n t0 dt. induction n as [|n IH]; [now rewrite Nat.add_0_r|]. rewrite Nat.add_succ_r. cbn [clock]. now rewrite IH. Qed.

(** Strictly increasing while the time step is large enough to be seen. *)
Lemma clock_increases : forall n t0 dt, ordinary_run (S n) t0 dt -> 0 < val dt -> Rabs (val t0) + INR n * val dt < 2 ^ 51 * val dt ->
  val (clock n t0 dt) < val (clock (S n) t0 dt).
Proof.
  intros n t0 dt H Hd Hv. pose proof (ordinary_shorter n (S n) t0 dt ltac:(lia) H) as Hn. destruct (clock_sharp n t0 dt Hn) as [Fc Hc].
  destruct Hn as (_ & _ & Hn & Hb'). fold (csize n t0 dt) in Hb'. pose proof (size_of _ _ _ _ Hc (exact_size n t0 dt)) as Hsz.
  assert (Hn2 : (1 + uu) ^ n <= 2) by (apply growth_le2; apply Rle_trans with (1 := Hn); apply pow_step; lia).
  pose proof (csize_pos n t0 dt) as Hp. destruct H as (F0 & Fd & HSn & Hb). fold (csize (S n) t0 dt) in Hb. rewrite csize_step in Hb.
  assert (Hs2 : (1 + uu) ^ n * csize n t0 dt <= 2 * csize n t0 dt) by (apply Rmult_le_compat_r; lra).
  destruct (add_correct (clock n t0 dt) dt Fc Fd) as (Fa & e & He & E).
  { apply Rle_trans with (1 := Rabs_triang _ _). pose proof (Rabs_pos (val dt)). apply Rle_trans with (2 * 2 ^ 1000 + 2 ^ 1000); [|apply le_1001]. lra. }
  cbn [clock]. rewrite E. set (c := val (clock n t0 dt)) in *. assert (Ec : csize n t0 dt = Rabs (val t0) + INR n * val dt) by (unfold csize; rewrite (Rabs_right (val dt)) by lra; reflexivity).
  rewrite Ec in *. set (s := Rabs (val t0) + INR n * val dt) in *.
  assert (Hu : uu * (2 ^ 51 * val dt) = / 4 * val dt).
  { unfold uu. replace (2 ^ 53) with (4 * 2 ^ 51) by (change (2 ^ 53) with (2 * (2 * 2 ^ 51)); ring). field; try (apply pow_nonzero; lra). }
  pose proof uu_pos.
  assert (He2 : Rabs (e * (c + val dt)) < val dt).
  { rewrite Rabs_mult. apply Rle_lt_trans with (uu * (2 * s + val dt)).
    - apply Rmult_le_compat; auto using Rabs_pos. apply Rle_trans with (1 := Rabs_triang _ _). rewrite (Rabs_right (val dt)) by lra. lra.
    - assert (uu * (2 * s) < uu * (2 * (2 ^ 51 * val dt))) by (apply Rmult_lt_compat_l; lra).
      assert (uu <= / 4). { unfold uu. apply Rinv_le; [lra|]. replace 4 with (2 ^ 2) by ring. apply pow_step. lia. }
      nra. }
  apply Rabs_def2 in He2. lra.
Qed.

(* ------------------------------------------------------------ probes *)

Lemma dle_spec : forall x y, finite x -> finite y -> dle x y = true <-> val x <= val y.
Proof.
  intros x y Fx Fy. unfold dle. change (b64_compare x y) with (Bcompare 53 1024 x y). rewrite Bcompare_correct by assumption. fold (val x). fold (val y).
  destruct (Rcompare_spec (val x) (val y)); split; intros; try lra; try reflexivity; discriminate.
Qed.

Lemma due_spec : forall c ts te n t, finite ts -> finite te -> finite t ->
  probe_due c ts te n t = true <-> Z.rem n c = 0%Z /\ val ts <= val t <= val te.
Proof.
  intros c ts te n t Fs Fe Ft. unfold probe_due. rewrite !andb_true_iff, Z.eqb_eq, !dle_spec by assumption. tauto.
Qed.

Lemma in_probe_steps : forall c ts te ns nt t0 dt s,
  In s (probe_steps c ts te ns nt t0 dt) <-> exists k, (1 <= k <= nt)%nat /\ s = (ns + Z.of_nat k)%Z /\ probe_due c ts te s (clock k t0 dt) = true.
Proof.
  intros. unfold probe_steps. rewrite in_map_iff. split.
  - intros ([s' t] & <- & H). apply filter_In in H. destruct H as [H Hd]. apply in_map_iff in H. destruct H as (k & E & Hk). injection E as <- <-.
    apply in_seq in Hk. exists k. cbn [fst snd] in *. repeat split; try lia. exact Hd.
  - intros (k & Hk & -> & Hd). exists ((ns + Z.of_nat k)%Z, clock k t0 dt). split; [reflexivity|]. apply filter_In. split; [|exact Hd].
    apply in_map_iff. exists k. split; [reflexivity|]. apply in_seq. lia.
Qed.

Lemma probe_surely : forall c ts te ns nt t0 dt k, ordinary_run nt t0 dt -> finite ts -> finite te -> (1 <= k <= nt)%nat ->
  Z.rem (ns + Z.of_nat k) c = 0%Z -> val ts + drift k t0 dt <= exact_time k t0 dt <= val te - drift k t0 dt ->
  In (ns + Z.of_nat k)%Z (probe_steps c ts te ns nt t0 dt).
Proof.
  intros c ts te ns nt t0 dt k H Fs Fe Hk Hr [H1 H2]. apply in_probe_steps. exists k. split; [exact Hk|split; [reflexivity|]].
  destruct (clock_close k t0 dt (ordinary_shorter k nt t0 dt ltac:(lia) H)) as [Fc Hc]. apply due_spec; auto. split; [exact Hr|].
  apply Rabs_def2b in Hc || apply Rabs_le_inv in Hc. lra.
Qed.

Lemma probe_only : forall c ts te ns nt t0 dt s, ordinary_run nt t0 dt -> finite ts -> finite te ->
  In s (probe_steps c ts te ns nt t0 dt) -> exists k, (1 <= k <= nt)%nat /\ s = (ns + Z.of_nat k)%Z /\ Z.rem s c = 0%Z /\
    val ts - drift k t0 dt <= exact_time k t0 dt <= val te + drift k t0 dt.
Proof.
  intros c ts te ns nt t0 dt s H Fs Fe Hin. apply in_probe_steps in Hin. destruct Hin as (k & Hk & Es & Hd). exists k. split; [exact Hk|split; [exact Es|]].
  destruct (clock_close k t0 dt (ordinary_shorter k nt t0 dt ltac:(lia) H)) as [Fc Hc]. apply due_spec in Hd; auto. destruct Hd as (Hr & H1 & H2). split; [exact Hr|].
  apply Rabs_def2b in Hc || apply Rabs_le_inv in Hc. lra.
Qed.

(* ------------------------------------------------------------ the mesh *)

Lemma dsums_step : forall l acc k a d, nth_error (acc :: dsums acc l) k = Some a -> nth_error l k = Some d -> nth_error (dsums acc l) k = Some (dadd a d).
Proof.
  induction l as [|d0 l IH]; intros acc k a d Ha Hd; [destruct k; discriminate|]. destruct k as [|k].
  - cbn in *. congruence.
  - cbn [nth_error dsums] in *. now apply IH.
Qed.

Lemma psum_step : forall l k a d, nth_error (dpartial l) k = Some a -> nth_error l (S k) = Some d -> nth_error (dpartial l) (S k) = Some (dadd a d).
Proof. intros [|d0 l] k a d Ha Hd; [discriminate|]. cbn [dpartial] in *. cbn [nth_error] in Hd |- *. now apply (dsums_step l d0 k a d). Qed.

Lemma length_of_step : forall l k d, nth_error l k = Some d -> length_of (S k) l = length_of k l + val d.
Proof.
  induction l as [|d0 l IH]; intros k d H; [destruct k; discriminate|]. destruct k as [|k].
  - cbn in *. injection H as ->. destruct l; cbn; ring.
  - cbn [nth_error] in H. cbn [length_of] in IH |- *. rewrite <- (Rplus_assoc (val d0)) || idtac. specialize (IH k d H). destruct l; [destruct k; discriminate|]. cbn [length_of] in *. lra.
Qed.

Lemma length_of_pos : forall l k, (forall d, In d l -> finite d /\ 0 < val d) -> 0 <= length_of k l.
Proof.
  induction l as [|d l IH]; intros [|k] H; cbn [length_of]; try lra. destruct (H d (or_introl eq_refl)). specialize (IH k (fun x hx => H x (or_intror hx))). lra.
Qed.

Lemma length_of_mono : forall l k m, (forall d, In d l -> finite d /\ 0 < val d) -> (k <= m)%nat -> length_of k l <= length_of m l.
Proof.
  induction l as [|d l IH]; intros [|k] [|m] H Hk; cbn [length_of]; try lra; try lia.
  - destruct (H d (or_introl eq_refl)). pose proof (length_of_pos l m (fun x hx => H x (or_intror hx))). lra.
  - assert (length_of k l <= length_of m l) by (apply IH; [intros x hx; apply H; now right|lia]). lra.
Qed.

Lemma size_k : forall min l k, ordinary_mesh min l -> (k <= length l)%nat ->
  0 <= length_of k l /\ Rabs (val min) + length_of k l <= 2 ^ 1000 /\ length_of k l <= 2 ^ 1000 /\ INR k <= 2 ^ 51 /\ (1 + uu) ^ k <= 2.
Proof.
  intros min l k (Fm & Hp & Hn & Hb) Hk. pose proof (length_of_mono l k _ Hp Hk). pose proof (length_of_pos l k Hp). pose proof (Rabs_pos (val min)).
  assert (INR k <= 2 ^ 51) by (apply Rle_trans with (2 := Hn); now apply le_INR). repeat split; try lra. apply growth_le2.
  apply Rle_trans with (2 ^ 51); [assumption|apply pow_step; lia].
Qed.

Lemma psum_close : forall min l, ordinary_mesh min l -> forall k, (k < length l)%nat ->
  exists a, nth_error (dpartial l) k = Some a /\ finite a /\ Rabs (val a - length_of (S k) l) <= ((1 + uu) ^ k - 1) * length_of (S k) l.
Proof.
  intros min l H. induction k as [|k IH]; intros Hk.
  - destruct l as [|d l]; [cbn in Hk; lia|]. exists d. destruct H as (_ & Hp & _). destruct (Hp d (or_introl eq_refl)). split; [reflexivity|split; [assumption|]].
    cbn [length_of pow]. replace (length_of 0 l) with 0 by (destruct l; reflexivity). replace (val d - (val d + 0)) with 0 by ring. rewrite Rabs_R0. lra.
  - destruct (IH ltac:(lia)) as (a & Ea & Fa & Ha). destruct (nth_error l (S k)) as [d|] eqn:Ed; [|apply nth_error_None in Ed; lia].
    pose proof H as (Fm & Hp & _). destruct (Hp d (nth_error_In _ _ Ed)) as [Fd Hd].
    exists (dadd a d). split; [now apply psum_step|]. rewrite (length_of_step l (S k) d Ed).
    destruct (size_k min l (S k) H ltac:(lia)) as (H0 & _ & Hb & _ & _). destruct (size_k min l k H ltac:(lia)) as (_ & _ & _ & _ & H2).
    destruct (size_k min l (S (S k)) H ltac:(lia)) as (_ & _ & Hb2 & _ & _). rewrite (length_of_step l (S k) d Ed) in Hb2.
    assert (Hsz : Rabs (val a) <= 2 * length_of (S k) l).
    { apply Rle_trans with ((1 + uu) ^ k * length_of (S k) l); [apply (size_of _ (length_of (S k) l)); [exact Ha|rewrite Rabs_right; lra]|]. apply Rmult_le_compat_r; lra. }
    destruct (add_correct a d Fa Fd) as (Fs & e & He & E).
    { apply Rle_trans with (1 := Rabs_triang _ _). rewrite (Rabs_right (val d)) by lra. apply Rle_trans with (2 * 2 ^ 1000 + 2 ^ 1000); [lra|apply le_1001]. }
    split; [exact Fs|]. rewrite E. replace ((1 + uu) ^ S k) with ((1 + uu) ^ k * (1 + uu)) by (cbn [pow]; ring).
    apply one_more with (s := length_of (S k) l); auto using pow_u_ge1; try (rewrite Rabs_right; lra).
Qed.

Lemma zero_val : val dzero = 0.
Proof. reflexivity. Qed.

Lemma add_zero : forall x, finite x -> Rabs (val x) <= 2 ^ 1002 -> finite (dadd dzero x) /\ val (dadd dzero x) = val x.
Proof.
  intros x Fx Hb. pose proof (Bplus_correct 53 1024 eq_refl eq_refl binop_nan_pl64 mode_NE dzero x eq_refl Fx) as H.
  change (B2R 53 1024 dzero) with 0 in H. rewrite Rplus_0_l in H. rewrite round_generic in H; [|apply valid_rnd_round_mode|apply generic_format_B2R].
  rewrite Rlt_bool_true in H.
  - destruct H as (H1 & H2 & _). split; [exact H2|exact H1].
  - fold (val x). apply Rle_lt_trans with (1 := Hb). change 1024%Z with (Z.of_nat 1024). rewrite bpow_nat. apply Rlt_pow; [lra|lia].
Qed.

(** The sum a vertex is made of, before the shift. *)
Lemma vertex_shape : forall min l k v, nth_error (vertices min l) k = Some v -> exists a, nth_error (dzero :: dpartial l) k = Some a /\ v = dadd a min.
Proof.
  intros min l k v H. unfold vertices in H. rewrite nth_error_map in H. destruct (nth_error (dzero :: dpartial l) k) as [a|]; [|discriminate].
  exists a. split; [reflexivity|]. cbn in H. congruence.
Qed.

Lemma dsums_length : forall l acc, length (dsums acc l) = length l.
Proof. induction l as [|d l IH]; intros acc; [reflexivity|]. cbn. now rewrite IH. Qed.

Lemma vertices_length : forall min l, length (vertices min l) = S (length l).
Proof. intros min l. unfold vertices. rewrite map_length. destruct l as [|d l]; [reflexivity|]. cbn. now rewrite dsums_length. Qed.

Lemma sum_close : forall min l k a, ordinary_mesh min l -> nth_error (dzero :: dpartial l) k = Some a -> (k <= length l)%nat ->
  finite a /\ Rabs (val a - length_of k l) <= ((1 + uu) ^ Nat.pred k - 1) * length_of k l /\ Rabs (val a) <= 2 * length_of k l.
Proof.
  intros min l k a H Ha Hk. destruct k as [|k].
  - cbn in Ha. injection Ha as <-. split; [reflexivity|]. rewrite zero_val. replace (length_of 0 l) with 0 by (destruct l; reflexivity). rewrite Rminus_0_r, Rabs_R0. lra.
  - destruct (psum_close min l H k ltac:(lia)) as (a' & Ea & Fa & Hc). cbn [nth_error] in Ha. assert (a' = a) by congruence. subst a'.
    split; [exact Fa|split; [exact Hc|]]. destruct (size_k min l (S k) H ltac:(lia)) as (H0 & _). destruct (size_k min l k H ltac:(lia)) as (_ & _ & _ & _ & H2).
    apply Rle_trans with ((1 + uu) ^ k * length_of (S k) l); [apply (size_of _ (length_of (S k) l)); [exact Hc|rewrite Rabs_right; lra]|]. apply Rmult_le_compat_r; lra.
Qed.

Lemma vertex_sharp : forall min l k v, ordinary_mesh min l -> nth_error (vertices min l) k = Some v ->
  finite v /\ Rabs (val v - (val min + length_of k l)) <= ((1 + uu) ^ k - 1) * (Rabs (val min) + length_of k l).
Proof.
  intros min l k v H Hv. assert (Hk : (k <= length l)%nat).
  { assert (k < length (vertices min l))%nat by (apply nth_error_Some; rewrite Hv; discriminate). rewrite vertices_length in *. lia. }
  destruct (vertex_shape min l k v Hv) as (a & Ha & ->). destruct (sum_close min l k a H Ha Hk) as (Fa & Hc & Hsz). pose proof H as (Fm & _).
  destruct (size_k min l k H Hk) as (H0 & Hb & Hb' & _ & _). destruct k as [|k].
  - cbn in Ha. injection Ha as <-. destruct (add_zero min Fm) as [F1 F2].
    { pose proof le_1001. assert (0 < 2 ^ 1000) by (apply pow_lt; lra). lra. }
    split; [exact F1|]. rewrite F2. replace (length_of 0 l) with 0 by (destruct l; reflexivity). replace (val min - (val min + 0)) with 0 by ring. rewrite Rabs_R0. cbn [pow]. lra.
  - destruct (add_correct a min Fa Fm) as (Fs & e & He & E).
    { apply Rle_trans with (1 := Rabs_triang _ _). apply Rle_trans with (2 * 2 ^ 1000 + 2 ^ 1000); [|apply le_1001]. pose proof (Rabs_pos (val min)). lra. }
    split; [exact Fs|]. rewrite E, (Rplus_comm (val min) (length_of _ _)), (Rplus_comm (Rabs _) (length_of _ _)).
    replace ((1 + uu) ^ S k) with ((1 + uu) ^ k * (1 + uu)) by (cbn [pow]; ring). cbn [Nat.pred] in Hc.
    apply one_more with (s := length_of (S k) l); auto using pow_u_ge1; try lra. rewrite Rabs_right; lra.
Qed.

Lemma vertex_close : forall min l k v, ordinary_mesh min l -> nth_error (vertices min l) k = Some v ->
  finite v /\ Rabs (val v - (val min + length_of k l)) <= INR k * eps * (Rabs (val min) + length_of k l).
Proof.
  intros min l k v H Hv. assert (Hk : (k <= length l)%nat).
  { assert (k < length (vertices min l))%nat by (apply nth_error_Some; rewrite Hv; discriminate). rewrite vertices_length in *. lia. }
  destruct (vertex_sharp min l k v H Hv) as [F Hc]. split; [exact F|]. apply Rle_trans with (1 := Hc). destruct (size_k min l k H Hk) as (H0 & _ & _ & Hi & _).
  apply Rmult_le_compat_r; [pose proof (Rabs_pos (val min)); lra|]. apply growth. apply Rle_trans with (1 := Hi). apply pow_step. lia.
Qed.

Lemma err_bound : forall e x b, Rabs e <= uu -> Rabs x <= b -> Rabs (e * x) <= uu * b.
Proof. intros. rewrite Rabs_mult. apply Rmult_le_compat; auto using Rabs_pos. Qed.

Lemma vertex_gap : forall min l k v v' d, ordinary_mesh min l -> nth_error (vertices min l) k = Some v -> nth_error (vertices min l) (S k) = Some v' ->
  nth_error l k = Some d -> val d - 3 * eps * (Rabs (val min) + length_of (S k) l) <= val v' - val v.
Proof.
  intros min l k v v' d H Hv Hv' Hd. assert (Hk : (k < length l)%nat) by (apply nth_error_Some; rewrite Hd; discriminate).
  destruct (vertex_shape min l k v Hv) as (a & Ha & ->). destruct (vertex_shape min l (S k) v' Hv') as (a' & Ha' & ->).
  destruct (sum_close min l k a H Ha ltac:(lia)) as (Fa & _ & Hsz). destruct (sum_close min l (S k) a' H Ha' ltac:(lia)) as (Fa' & _ & Hsz').
  pose proof H as (Fm & Hp & _). destruct (Hp d (nth_error_In _ _ Hd)) as [Fd Hd0].
  destruct (size_k min l k H ltac:(lia)) as (H0 & Hb & Hb' & _ & _). destruct (size_k min l (S k) H ltac:(lia)) as (H1 & Hc & Hc' & _ & _).
  pose proof (length_of_step l k d Hd) as EL. pose proof (Rabs_pos (val min)) as Hm. pose proof uu_pos as Hu. pose proof le_1001 as Hbig.
  assert (Hs : exists e1, Rabs e1 <= uu /\ val a' = (val a + val d) * (1 + e1)).
  { destruct k as [|k].
    - cbn in Ha. injection Ha as <-. destruct l as [|d0 l]; [discriminate|]. assert (E0 : a' = d) by (apply (f_equal (fun o => match o with Some x => x | None => d end)) in Ha', Hd; cbn in Ha', Hd; congruence). subst a'. exists 0. rewrite Rabs_R0, zero_val. split; [lra|ring].
    - change (nth_error (dpartial l) k = Some a) in Ha. change (nth_error (dpartial l) (S k) = Some a') in Ha'. pose proof (psum_step l k a d Ha Hd) as E. assert (a' = dadd a d) by congruence. subst a'.
      destruct (add_correct a d Fa Fd) as (_ & e & He & E').
      + apply Rle_trans with (1 := Rabs_triang _ _). rewrite (Rabs_right (val d)) by lra. lra.
      + exists e. now split. }
  destruct Hs as (e1 & He1 & E1).
  destruct (add_correct a min Fa Fm) as (_ & e2 & He2 & E2); [apply Rle_trans with (1 := Rabs_triang _ _); lra|].
  destruct (add_correct a' min Fa' Fm) as (_ & e3 & He3 & E3); [apply Rle_trans with (1 := Rabs_triang _ _); lra|].
  rewrite E2, E3. set (M := Rabs (val min) + length_of (S k) l) in *.
  assert (B1 : Rabs (e1 * (val a + val d)) <= uu * (2 * M)).
  { apply err_bound; [exact He1|]. apply Rle_trans with (1 := Rabs_triang _ _). rewrite (Rabs_right (val d)) by lra. unfold M. lra. }
  assert (B2 : Rabs (e2 * (val a + val min)) <= uu * (2 * M)).
  { apply err_bound; [exact He2|]. apply Rle_trans with (1 := Rabs_triang _ _). unfold M. lra. }
  assert (B3 : Rabs (e3 * (val a' + val min)) <= uu * (2 * M)).
  { apply err_bound; [exact He3|]. apply Rle_trans with (1 := Rabs_triang _ _). unfold M. lra. }
  apply Rabs_le_inv in B1. apply Rabs_le_inv in B2. apply Rabs_le_inv in B3. rewrite uu_eps.
  replace ((val a + val min) * (1 + e2)) with (val a + val min + e2 * (val a + val min)) by ring.
  replace ((val a' + val min) * (1 + e3)) with (val a' + val min + e3 * (val a' + val min)) by ring.
  replace (val a') with (val a + val d + e1 * (val a + val d)) at 1 by (rewrite E1; ring). lra.
Qed.

Lemma vertex_increases : forall min l k v v' d, ordinary_mesh min l -> nth_error (vertices min l) k = Some v -> nth_error (vertices min l) (S k) = Some v' ->
  nth_error l k = Some d -> 3 * eps * (Rabs (val min) + length_of (S k) l) < val d -> val v < val v'.
Proof. intros min l k v v' d H Hv Hv' Hd Hw. pose proof (vertex_gap min l k v v' d H Hv Hv' Hd). lra. Qed.

(* ------------------------------------------------------------ uniform cells *)

Lemma below' : forall r, Rabs r <= 2 ^ 1003 -> Rlt_bool (Rabs r) (bpow radix2 1024) = true.
Proof. intros r H. apply Rlt_bool_true. change 1024%Z with (Z.of_nat 1024). rewrite bpow_nat. apply Rle_lt_trans with (1 := H). apply Rlt_pow; [lra|lia]. Qed.

Lemma of_int : forall n, (0 <= n <= 2 ^ 52)%Z -> finite (dofZ n) /\ val (dofZ n) = IZR n.
Proof.
  intros n Hn. unfold dofZ. pose proof (binary_normalize_correct 53 1024 eq_refl eq_refl mode_NE n 0 false) as H.
  assert (E : F2R (Float radix2 n 0) = IZR n) by (unfold F2R; cbn; ring). rewrite E in H. rewrite round_generic in H.
  - rewrite below' in H.
    + destruct H as (H1 & H2 & _). split; [exact H2|exact H1].
    + rewrite Rabs_right by (apply Rle_ge, (IZR_le 0); lia). apply Rle_trans with (IZR (2 ^ 52)); [apply IZR_le; lia|].
      change (2 ^ 52)%Z with (2 ^ Z.of_nat 52)%Z. rewrite <- pow_IZR. apply pow_step. lia.
  - apply valid_rnd_round_mode.
  - apply (generic_format_FLT radix2 (-1074) 53). apply (FLT_spec radix2 (-1074) 53 (IZR n) (Float radix2 n 0)); [now rewrite E|change (Z.abs n < 2 ^ 53)%Z; lia|cbn; lia].
Qed.

Lemma sub_correct : forall x y, finite x -> finite y -> Rabs (val x - val y) <= 2 ^ 1002 ->
  finite (dsub x y) /\ exists e, Rabs e <= uu /\ val (dsub x y) = (val x - val y) * (1 + e).
Proof.
  intros x y Fx Fy Hb.
  destruct (@FLT_plus_error_N_ex radix2 (-1074)%Z 53%Z eq_refl (fun n => negb (Z.even n)) (val x) (- val y)) as (e & He & E);
    [apply (generic_format_B2R 53 1024)|apply generic_format_opp, (generic_format_B2R 53 1024)|].
  pose proof (u_weaker e He) as He'.
  pose proof (Bminus_correct 53 1024 eq_refl eq_refl binop_nan_pl64 mode_NE x y Fx Fy) as H.
  change (round radix2 (SpecFloat.fexp 53 1024) (round_mode mode_NE) (B2R 53 1024 x - B2R 53 1024 y))
    with (round radix2 (FLT_exp (-1074) 53) (Znearest (fun n => negb (Z.even n))) (val x + - val y)) in H.
  rewrite E, (below (val x + - val y) e _ He' eq_refl Hb) in H. destruct H as (H1 & H2 & _). split; [exact H2|]. exists e. split; [exact He'|exact H1].
Qed.

Lemma div_correct : forall x y, finite x -> val y <> 0 -> Rabs (val x / val y) <= 2 ^ 1002 -> / 2 ^ 1022 <= Rabs (val x / val y) ->
  finite (ddiv x y) /\ exists e, Rabs e <= uu /\ val (ddiv x y) = val x / val y * (1 + e).
Proof.
  intros x y Fx Hy Hb Hs.
  destruct (relative_error_N_FLT_ex radix2 (-1074) 53 eq_refl (fun n => negb (Z.even n)) (val x / val y)) as (e & He & E).
  { change (-1074 + 53 - 1)%Z with (- Z.of_nat 1022)%Z. now rewrite bpow_opp, bpow_nat. }
  rewrite uu_bpow in He. pose proof (Bdiv_correct 53 1024 eq_refl eq_refl binop_nan_pl64 mode_NE x y Hy) as H.
  change (round radix2 (SpecFloat.fexp 53 1024) (round_mode mode_NE) (B2R 53 1024 x / B2R 53 1024 y))
    with (round radix2 (FLT_exp (-1074) 53) (Znearest (fun n => negb (Z.even n))) (val x / val y)) in H.
  rewrite E, (below _ e _ He eq_refl Hb) in H. destruct H as (H1 & H2 & _). split; [unfold finite; unfold ddiv; rewrite <- Fx; exact H2|]. exists e. split; [exact He|exact H1].
Qed.

Lemma two_errors : forall e1 e2, Rabs e1 <= uu -> Rabs e2 <= uu -> Rabs ((1 + e1) * (1 + e2) - 1) <= (1 + uu) ^ 2 - 1.
Proof.
  intros e1 e2 H1 H2. replace ((1 + e1) * (1 + e2) - 1) with (e1 + e2 + e1 * e2) by ring. pose proof (err_bound e1 e2 uu H1 H2) as H3.
  apply Rle_trans with (1 := Rabs_triang _ _). pose proof (Rabs_triang e1 e2). cbn [pow]. lra.
Qed.

Lemma uu_small : uu <= / 2 ^ 10.
Proof. unfold uu. apply Rinv_le; [apply pow_lt; lra|]. apply pow_step. lia. Qed.

(** The width of the cells of a uniform sub-domain. *)
Lemma width_close : forall n bg ed, (0 < n)%nat -> INR n <= 2 ^ 50 -> finite bg -> finite ed -> val bg < val ed -> Rabs (val bg) + Rabs (val ed) <= 2 ^ 998 ->
  / 2 ^ 1000 <= (val ed - val bg) / INR n ->
  let w := ddiv (dsub ed bg) (dofZ (Z.of_nat n)) in let h := (val ed - val bg) / INR n in
  finite w /\ Rabs (val w - h) <= ((1 + uu) ^ 2 - 1) * h.
Proof.
  intros n bg ed Hn0 Hn Fb Fe Hlt Hb Hs w h. pose proof uu_pos as Hu. pose proof uu_small as Hu1.
  assert (Hin : 1 <= INR n) by (apply (le_INR 1); lia).
  assert (Hd : Rabs (val ed - val bg) <= 2 ^ 998) by (apply Rle_trans with (2 := Hb); unfold Rminus; apply Rle_trans with (1 := Rabs_triang _ _); rewrite Rabs_Ropp; lra).
  assert (Hbig : 2 ^ 998 <= 2 ^ 1002) by (apply pow_step; lia).
  destruct (sub_correct ed bg Fe Fb ltac:(lra)) as (F1 & e1 & He1 & E1).
  assert (Hz : (0 <= Z.of_nat n <= 2 ^ 52)%Z).
  { split; [lia|]. apply le_IZR. rewrite <- INR_IZR_INZ. change (2 ^ 52)%Z with (2 ^ Z.of_nat 52)%Z. rewrite <- pow_IZR. apply Rle_trans with (1 := Hn). apply pow_step. lia. }
  destruct (of_int (Z.of_nat n) Hz) as (F2 & E2). rewrite <- INR_IZR_INZ in E2.
  assert (Hh : 0 < h) by (unfold h; apply Rdiv_lt_0_compat; lra).
  assert (Hhb : h <= 2 ^ 998).
  { apply Rle_trans with (val ed - val bg); [|rewrite Rabs_right in Hd; lra]. unfold h. apply Rmult_le_reg_r with (INR n); [lra|]. unfold Rdiv. rewrite Rmult_assoc, Rinv_l by lra. nra. }
  assert (Ex : val (dsub ed bg) / val (dofZ (Z.of_nat n)) = h * (1 + e1)) by (rewrite E1, E2; unfold h; field; lra).
  apply Rabs_le_inv in He1 as He1'. assert (Hu2 : uu <= / 2) by (apply Rle_trans with (1 := Hu1); apply Rinv_le; [lra|]; replace 2 with (2 ^ 1) at 1 by ring; apply pow_step; lia).
  assert (Hlow : / 2 ^ 1022 <= h * (1 + e1)).
  { apply Rle_trans with (/ 2 ^ 1000 * / 2).
    - rewrite <- Rinv_mult. apply Rinv_le; [apply Rmult_lt_0_compat; [apply pow_lt|]; lra|]. replace (2 ^ 1000 * 2) with (2 ^ 1001) by (change (2 ^ 1001) with (2 * 2 ^ 1000); ring). apply pow_step. lia.
    - apply Rmult_le_compat; [apply Rlt_le, Rinv_0_lt_compat, pow_lt; lra|lra|exact Hs|lra]. }
  assert (Hpos : 0 < h * (1 + e1)) by (apply Rmult_lt_0_compat; lra).
  destruct (div_correct (dsub ed bg) (dofZ (Z.of_nat n)) F1) as (F3 & e2 & He2 & E3).
  - rewrite E2. lra.
  - rewrite Ex, Rabs_right by lra. apply Rle_trans with (2 ^ 998 * 2); [apply Rmult_le_compat; lra|]. replace (2 ^ 998 * 2) with (2 ^ 999) by (change (2 ^ 999) with (2 * 2 ^ 998); ring). apply pow_step. lia.
  - rewrite Ex, Rabs_right by lra. exact Hlow.
  - split; [exact F3|]. unfold w. rewrite E3, Ex. replace (h * (1 + e1) * (1 + e2) - h) with (((1 + e1) * (1 + e2) - 1) * h) by ring.
    rewrite Rabs_mult, (Rabs_right h) by lra. apply Rmult_le_compat_r; [lra|]. now apply two_errors.
Qed.

Lemma length_repeat : forall w k n, (k <= n)%nat -> length_of k (repeat w n) = INR k * val w.
Proof.
  intros w. induction k as [|k IH]; intros n Hk; [cbn [INR]; destruct (repeat w n); cbn [length_of]; ring|]. destruct n as [|n]; [lia|].
  cbn [repeat length_of]. rewrite IH by lia. rewrite S_INR. ring.
Qed.

Lemma sq_small : (1 + uu) ^ 2 - 1 <= / 100.
Proof. pose proof uu_pos. pose proof uu_small as H1. assert (/ 2 ^ 10 <= / 1000) by (apply Rinv_le; lra). cbn [pow]. nra. Qed.

Lemma uniform_mesh_ok : forall n bg ed, (0 < n)%nat -> INR n <= 2 ^ 50 -> finite bg -> finite ed -> val bg < val ed -> Rabs (val bg) + Rabs (val ed) <= 2 ^ 998 ->
  / 2 ^ 1000 <= (val ed - val bg) / INR n -> ordinary_mesh bg (uniform_widths n bg ed).
Proof.
  intros n bg ed Hn0 Hn Fb Fe Hlt Hb Hs. destruct (width_close n bg ed Hn0 Hn Fb Fe Hlt Hb Hs) as [Fw Hw]. set (w := ddiv (dsub ed bg) (dofZ (Z.of_nat n))) in *.
  assert (Hin : 1 <= INR n) by (apply (le_INR 1); lia). set (h := (val ed - val bg) / INR n) in *. pose proof sq_small as Hq.
  assert (Hh : 0 < h) by (unfold h; apply Rdiv_lt_0_compat; lra). apply Rabs_le_inv in Hw. assert (Hph : ((1 + uu) ^ 2 - 1) * h <= / 100 * h) by (apply Rmult_le_compat_r; lra). assert (Hwp : 0 < val w) by lra. assert (Hwu : val w <= 2 * h) by lra.
  split; [exact Fb|split; [|split]].
  - intros d Hd. apply repeat_spec in Hd. subst d. now split.
  - unfold uniform_widths. rewrite repeat_length. apply Rle_trans with (1 := Hn). apply pow_step. lia.
  - unfold uniform_widths. rewrite repeat_length, length_repeat by lia. fold w. assert (Enh : INR n * h = val ed - val bg) by (unfold h; field; lra).
    assert (INR n * val w <= 2 * (val ed - val bg)) by (rewrite <- Enh; nra). assert (0 < 2 ^ 998) by (apply pow_lt; lra).
    apply Rle_trans with (4 * 2 ^ 998); [|replace (4 * 2 ^ 998) with (2 ^ 1000) by (change (2 ^ 1000) with (2 * (2 * 2 ^ 998)); ring); lra].
    pose proof (Rle_abs (val ed)). pose proof (Rle_abs (- val bg)) as Hn'. rewrite Rabs_Ropp in Hn'. pose proof (Rabs_pos (val bg)). pose proof (Rabs_pos (val ed)). lra.
Qed.

Lemma uniform_close : forall n bg ed k v, (0 < n)%nat -> INR n <= 2 ^ 50 -> finite bg -> finite ed -> val bg < val ed -> Rabs (val bg) + Rabs (val ed) <= 2 ^ 998 ->
  / 2 ^ 1000 <= (val ed - val bg) / INR n -> nth_error (vertices bg (uniform_widths n bg ed)) k = Some v ->
  finite v /\ Rabs (val v - (val bg + INR k * ((val ed - val bg) / INR n))) <= (INR k + 2) * eps * (Rabs (val bg) + INR k * ((val ed - val bg) / INR n)).
Proof.
  intros n bg ed k v Hn0 Hn Fb Fe Hlt Hb Hs Hv. pose proof (uniform_mesh_ok n bg ed Hn0 Hn Fb Fe Hlt Hb Hs) as Hm.
  destruct (width_close n bg ed Hn0 Hn Fb Fe Hlt Hb Hs) as [Fw Hw]. destruct (vertex_sharp _ _ _ _ Hm Hv) as [Fv Hc]. split; [exact Fv|].
  assert (Hk : (k <= n)%nat).
  { assert (k < length (vertices bg (uniform_widths n bg ed)))%nat by (apply nth_error_Some; rewrite Hv; discriminate). rewrite vertices_length in *. unfold uniform_widths in *. rewrite repeat_length in *. lia. }
  unfold uniform_widths in Hc. rewrite length_repeat in Hc by assumption. set (w := ddiv (dsub ed bg) (dofZ (Z.of_nat n))) in *. set (h := (val ed - val bg) / INR n) in *.
  assert (Hin : 1 <= INR n) by (apply (le_INR 1); lia). assert (Hh : 0 < h) by (unfold h; apply Rdiv_lt_0_compat; lra).
  pose proof (pos_INR k) as Hk0. pose proof (Rabs_pos (val bg)) as Hbp. pose proof (pow_u_ge1 k) as Hq1. pose proof (pow_u_ge1 2) as Hq2.
  set (q := (1 + uu) ^ k) in *. set (p := (1 + uu) ^ 2) in *.
  apply Rle_trans with ((p * q - 1) * (Rabs (val bg) + INR k * h)).
  - replace (val v - (val bg + INR k * h)) with ((val v - (val bg + INR k * val w)) + INR k * (val w - h)) by ring.
    apply Rle_trans with (1 := Rabs_triang _ _). rewrite (Rabs_mult (INR k)), (Rabs_right (INR k)) by lra.
    assert (A1 : INR k * Rabs (val w - h) <= INR k * ((p - 1) * h)) by (apply Rmult_le_compat_l; lra).
    assert (A2 : val w <= p * h). { apply Rabs_le_inv in Hw. lra. }
    assert (A3 : (q - 1) * (INR k * val w) <= (q - 1) * (INR k * (p * h))) by (apply Rmult_le_compat_l; [lra|]; apply Rmult_le_compat_l; lra).
    assert (A4 : 0 <= q * (p - 1) * Rabs (val bg)) by (apply Rmult_le_pos; [apply Rmult_le_pos|]; lra). lra.
  - apply Rmult_le_compat_r; [assert (0 <= INR k * h) by (apply Rmult_le_pos; lra); lra|]. replace (p * q) with ((1 + uu) ^ (2 + k)) by (unfold p, q; now rewrite pow_add).
    replace (INR k + 2) with (INR (2 + k)) by (rewrite plus_INR; cbn [INR]; ring). apply growth. rewrite plus_INR. apply le_INR in Hk. cbn [INR].
    apply Rle_trans with (2 + 2 ^ 50); [lra|]. replace (2 ^ 52) with (4 * 2 ^ 50) by (change (2 ^ 52) with (2 * (2 * 2 ^ 50)); ring). assert (1 <= 2 ^ 50) by (apply pow_R1_Rle; lra). lra.
Qed.

Lemma uniform_increases : forall n bg ed k v v', (0 < n)%nat -> INR n <= 2 ^ 50 -> finite bg -> finite ed -> val bg < val ed -> Rabs (val bg) + Rabs (val ed) <= 2 ^ 998 ->
  / 2 ^ 1000 <= (val ed - val bg) / INR n -> 4 * eps * (Rabs (val bg) + (val ed - val bg)) <= (val ed - val bg) / INR n ->
  nth_error (vertices bg (uniform_widths n bg ed)) k = Some v -> nth_error (vertices bg (uniform_widths n bg ed)) (S k) = Some v' -> val v < val v'.
Proof.
  intros n bg ed k v v' Hn0 Hn Fb Fe Hlt Hb Hs Hr Hv Hv'. pose proof (uniform_mesh_ok n bg ed Hn0 Hn Fb Fe Hlt Hb Hs) as Hm.
  destruct (width_close n bg ed Hn0 Hn Fb Fe Hlt Hb Hs) as [Fw Hw].
  assert (Hk : (S k <= n)%nat).
  { assert (S k < length (vertices bg (uniform_widths n bg ed)))%nat by (apply nth_error_Some; rewrite Hv'; discriminate). rewrite vertices_length in *. unfold uniform_widths in *. rewrite repeat_length in *. lia. }
  set (w := ddiv (dsub ed bg) (dofZ (Z.of_nat n))) in *. set (h := (val ed - val bg) / INR n) in *.
  apply (vertex_increases bg (uniform_widths n bg ed) k v v' w Hm Hv Hv').
  - unfold uniform_widths. fold w. apply nth_error_repeat. lia.
  - unfold uniform_widths. fold w. rewrite length_repeat by assumption.
    assert (Hin : 1 <= INR n) by (apply (le_INR 1); lia). assert (Hh : 0 < h) by (unfold h; apply Rdiv_lt_0_compat; lra).
    assert (Enh : INR n * h = val ed - val bg) by (unfold h; field; lra). pose proof sq_small as Hq. pose proof (pow_u_ge1 2) as Hq2. set (p := (1 + uu) ^ 2) in *. apply Rabs_le_inv in Hw.
    pose proof (Rabs_pos (val bg)). apply le_INR in Hk. pose proof (pos_INR (S k)) as Hk0.
    assert (B : INR (S k) * val w <= INR n * (p * h)) by (apply Rmult_le_compat; nra).
    assert (He : 0 < eps) by (unfold eps; apply Rinv_0_lt_compat, pow_lt; lra).
    assert (Hph : (p - 1) * h <= / 100 * h) by (apply Rmult_le_compat_r; lra).
    apply Rle_lt_trans with (3 * eps * (p * (Rabs (val bg) + (val ed - val bg)))).
    + apply Rmult_le_compat_l; [lra|]. replace (INR n * (p * h)) with (p * (val ed - val bg)) in B by (rewrite <- Enh; ring). nra.
    + apply Rle_lt_trans with (3 / 4 * p * h); [|nra].
      replace (3 * eps * (p * (Rabs (val bg) + (val ed - val bg)))) with (3 / 4 * p * (4 * eps * (Rabs (val bg) + (val ed - val bg)))) by field.
      apply Rmult_le_compat_l; lra.
Qed.

(* ------------------------------------------------------------ pressure points *)

Lemma half_val : val dhalf = / 2.
Proof. change (4503599627370496 * / IZR (Z.pow_pos 2 53) = / 2). change (Z.pow_pos 2 53) with 9007199254740992%Z. lra. Qed.

Lemma mul_half : forall d, finite d -> 0 < val d -> val d <= 2 ^ 1000 -> / 2 ^ 1000 <= val d ->
  finite (dmul dhalf d) /\ exists e, Rabs e <= uu /\ val (dmul dhalf d) = val d / 2 * (1 + e).
Proof.
  intros d Fd Hd Hb Hs. assert (Ex : val dhalf * val d = val d / 2) by (rewrite half_val; field).
  destruct (relative_error_N_FLT_ex radix2 (-1074) 53 eq_refl (fun n => negb (Z.even n)) (val dhalf * val d)) as (e & He & E).
  { change (-1074 + 53 - 1)%Z with (- Z.of_nat 1022)%Z. rewrite bpow_opp, bpow_nat, Ex, Rabs_right by lra. apply Rle_trans with (/ 2 ^ 1000 * / 2); [|lra].
    rewrite <- Rinv_mult. apply Rinv_le; [apply Rmult_lt_0_compat; [apply pow_lt|]; lra|]. replace (2 ^ 1000 * 2) with (2 ^ 1001) by (change (2 ^ 1001) with (2 * 2 ^ 1000); ring). apply pow_step. lia. }
  rewrite uu_bpow in He. pose proof (Bmult_correct 53 1024 eq_refl eq_refl binop_nan_pl64 mode_NE dhalf d) as H.
  change (round radix2 (SpecFloat.fexp 53 1024) (round_mode mode_NE) (B2R 53 1024 dhalf * B2R 53 1024 d))
    with (round radix2 (FLT_exp (-1074) 53) (Znearest (fun n => negb (Z.even n))) (val dhalf * val d)) in H.
  assert (Hb2 : Rabs (val dhalf * val d) <= 2 ^ 1002).
  { rewrite Ex, Rabs_right by lra. apply Rle_trans with (2 ^ 1000); [lra|]. apply pow_step. lia. }
  rewrite E, (below _ e _ He eq_refl Hb2) in H. destruct H as (H1 & H2 & _). split.
  - unfold finite, dmul, b64_mult. rewrite Fd in H2. exact H2.
  - exists e. split; [exact He|]. rewrite <- Ex. exact H1.
Qed.

Lemma nth_combine : forall (A B : Type) (l : list A) (m : list B) k a b, nth_error l k = Some a -> nth_error m k = Some b -> nth_error (combine l m) k = Some (a, b).
Proof.
  induction l as [|x l IH]; intros m k a b Ha Hb; [destruct k; discriminate|]. destruct m as [|y m]; [destruct k; discriminate|]. destruct k as [|k]; cbn in *; [congruence|auto].
Qed.

Lemma vertex_next : forall min l k a, nth_error (dpartial l) k = Some a -> nth_error (vertices min l) (S k) = Some (dadd a min).
Proof. intros min l k a H. unfold vertices. rewrite nth_error_map. change (nth_error (dzero :: dpartial l) (S k)) with (nth_error (dpartial l) k). now rewrite H. Qed.

Lemma centre_shape : forall min l k d v', ordinary_mesh min l -> nth_error l k = Some d -> nth_error (vertices min l) (S k) = Some v' ->
  nth_error (centres min l) k = Some (dsub v' (dmul dhalf d)).
Proof.
  intros min l k d v' H Hd Hv. assert (Hk : (k < length l)%nat) by (apply nth_error_Some; rewrite Hd; discriminate).
  destruct (psum_close min l H k Hk) as (a & Ea & _). rewrite (vertex_next min l k a Ea) in Hv. injection Hv as <-.
  unfold centres. rewrite nth_error_map, (nth_combine _ _ _ _ _ _ _ Ea Hd). reflexivity.
Qed.

Lemma centre_between : forall min l k v v' d, ordinary_mesh min l -> nth_error (vertices min l) k = Some v -> nth_error (vertices min l) (S k) = Some v' ->
  nth_error l k = Some d -> / 2 ^ 1000 <= val d -> 16 * eps * (Rabs (val min) + length_of (S k) l) < val d ->
  exists c, nth_error (centres min l) k = Some c /\ finite c /\ val v < val c < val v'.
Proof.
  intros min l k v v' d H Hv Hv' Hd Hlow Hw. assert (Hk : (k < length l)%nat) by (apply nth_error_Some; rewrite Hd; discriminate).
  pose proof (vertex_gap min l k v v' d H Hv Hv' Hd) as Hg. destruct (vertex_sharp min l (S k) v' H Hv') as [Fv Hc].
  exists (dsub v' (dmul dhalf d)). split; [now apply centre_shape|]. pose proof H as (Fm & Hp & _). destruct (Hp d (nth_error_In _ _ Hd)) as [Fd Hd0].
  destruct (size_k min l k H ltac:(lia)) as (H0 & _). destruct (size_k min l (S k) H ltac:(lia)) as (H1 & Hb & Hb' & _ & Hq).
  pose proof (length_of_step l k d Hd) as EL. pose proof (Rabs_pos (val min)) as Hm. pose proof uu_pos as Hu. pose proof uu_small as Hu1. assert (Hu2 : uu <= / 1000) by (apply Rle_trans with (1 := Hu1); apply Rinv_le; lra).
  pose proof le_1001 as Hbig. assert (H1000 : 0 < 2 ^ 1000) by (apply pow_lt; lra).
  destruct (mul_half d Fd Hd0 ltac:(lra) Hlow) as (Fh & e1 & He1 & E1). set (M := Rabs (val min) + length_of (S k) l) in *.
  assert (Hvs : Rabs (val v') <= 2 * M).
  { apply Rle_trans with ((1 + uu) ^ S k * M); [apply (size_of _ (val min + length_of (S k) l)); [exact Hc|]|apply Rmult_le_compat_r; unfold M; lra].
    apply Rle_trans with (1 := Rabs_triang _ _). rewrite (Rabs_right (length_of _ _)) by lra. unfold M. lra. }
  assert (Hdm : val d <= M) by (unfold M; lra).
  assert (B1 : Rabs (e1 * (val d / 2)) <= uu * M) by (apply err_bound; [exact He1|rewrite Rabs_right; lra]). apply Rabs_le_inv in B1 as B1'.
  assert (Eh : val (dmul dhalf d) = val d / 2 + e1 * (val d / 2)) by (rewrite E1; ring).
  assert (HuM : uu * M <= / 1000 * M) by (apply Rmult_le_compat_r; unfold M; lra).
  assert (Hdiff : Rabs (val v' - val (dmul dhalf d)) <= 3 * M).
  { unfold Rminus. apply Rle_trans with (1 := Rabs_triang _ _). rewrite Rabs_Ropp, Eh. pose proof (Rabs_triang (val d / 2) (e1 * (val d / 2))) as Ht. rewrite (Rabs_right (val d / 2)) in Ht by lra. lra. }
  destruct (sub_correct v' (dmul dhalf d) Fv Fh) as (Fc & e2 & He2 & E2).
  { apply Rle_trans with (1 := Hdiff). apply Rle_trans with (2 := Hbig). lra. }
  split; [exact Fc|]. assert (B2 : Rabs (e2 * (val v' - val (dmul dhalf d))) <= uu * (3 * M)) by (apply err_bound; assumption). apply Rabs_le_inv in B2.
  replace (val (dsub v' (dmul dhalf d))) with (val v' - val (dmul dhalf d) + e2 * (val v' - val (dmul dhalf d))) by (rewrite E2; ring).
  rewrite uu_eps in *. rewrite Eh in B2 |- *. split; lra.
Qed.
