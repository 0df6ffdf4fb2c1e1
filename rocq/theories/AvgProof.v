(** Proofs for C94. *)
From Coq Require Import ZArith Reals List Lra Lia Bool.
From Flocq Require Import Core BinarySingleNaN Binary Bits.
From Verif Require Import FloatModel FloatSpec FloatProof KernelModel KernelProof AvgModel AvgSpec.
Import ListNotations.
Local Open Scope R_scope.

Definition avg (l : list dbl) : dbl := dmul (ddiv (dofZ 1) (dofZ (Z.of_nat (length l)))) (fold_left dadd l dzero).

Lemma fold_out ns vs : forall s c out, snd (fold_left (accumulate ns) vs (s, c, out)) = out ++ snd (fold_left (accumulate ns) vs (s, c, [])).
Proof.
  induction vs as [|v vs IH]; intros s c out; cbn [fold_left]; [now rewrite app_nil_r|].
  unfold accumulate at 2 4. destruct (Z.rem (c + 1) ns =? 0)%Z; [|apply IH].
  rewrite IH. rewrite (IH _ _ ([] ++ _)). cbn [app]. now rewrite <- app_assoc.
Qed.
Lemma partial ns l : forall s c, (0 <= c)%Z -> (c + Z.of_nat (length l) < ns)%Z -> fold_left (accumulate ns) l (s, c, []) = (fold_left dadd l s, (c + Z.of_nat (length l))%Z, []).
Proof.
  induction l as [|v l IH]; intros s c Hc H; cbn [fold_left length] in *; [f_equal; f_equal; lia|].
  unfold accumulate at 2. rewrite Z.rem_small by lia. replace (c + 1 =? 0)%Z with false by (symmetry; apply Z.eqb_neq; lia).
  rewrite IH by lia. f_equal. f_equal. lia.
Qed.
Lemma averages_short ns l : (Z.of_nat (length l) < ns)%Z -> averages ns l = [].
Proof. intros H. unfold averages. rewrite partial by lia. reflexivity. Qed.
Lemma averages_cycle ns l rest : (0 < ns)%Z -> Z.of_nat (length l) = ns -> averages ns (l ++ rest) = avg l :: averages ns rest.
Proof.
  intros P H. destruct (exists_last (l := l)) as (l' & v & ->); [intros ->; cbn in H; lia|].
  assert (L : Z.of_nat (length l') = (ns - 1)%Z) by (rewrite app_length in H; cbn in H; lia).
  unfold averages. rewrite !fold_left_app, partial by lia. cbn [fold_left]. unfold accumulate at 2.
  replace (0 + Z.of_nat (length l') + 1)%Z with ns by lia. rewrite Z.rem_same by lia. cbn [Z.eqb app].
  rewrite fold_out. cbn [app]. f_equal. unfold avg. rewrite fold_left_app, H. reflexivity.
Qed.
Lemma averages_length n : (0 < n)%nat -> forall vs, length (averages (Z.of_nat n) vs) = (length vs / n)%nat.
Proof.
  intros P. assert (G : forall m vs, (length vs <= m)%nat -> length (averages (Z.of_nat n) vs) = (length vs / n)%nat).
  { induction m as [|m IH]; intros vs Hm.
    - destruct vs; [|cbn in Hm; lia]. rewrite averages_short by (cbn; lia). symmetry. apply Nat.div_small. cbn. lia.
    - destruct (Nat.lt_ge_cases (length vs) n) as [A|A]; [rewrite averages_short by lia; symmetry; now apply Nat.div_small|].
      rewrite <- (firstn_skipn n vs) at 1. rewrite averages_cycle by (rewrite ?firstn_length; lia). cbn [length].
      rewrite IH by (rewrite skipn_length; lia). rewrite skipn_length. replace (length vs) with ((length vs - n) + 1 * n)%nat at 2 by lia. rewrite Nat.div_add by lia. lia. }
  intros vs. now apply (G (length vs)).
Qed.
Lemma skip_skip {A} a b (l : list A) : skipn b (skipn a l) = skipn (a + b) l.
Proof. revert l. induction a as [|a IH]; intros l; [reflexivity|]. destruct l; [cbn; now rewrite skipn_nil|]. cbn. apply IH. Qed.
Lemma averages_nth n : (0 < n)%nat -> forall k vs a, nth_error (averages (Z.of_nat n) vs) k = Some a -> length (cycle n k vs) = n /\ a = avg (cycle n k vs).
Proof.
  intros P. unfold cycle. induction k as [|k IH]; intros vs a H;
    (destruct (Nat.lt_ge_cases (length vs) n) as [A|A]; [rewrite averages_short in H by lia; discriminate|]);
    rewrite <- (firstn_skipn n vs) in H; rewrite averages_cycle in H by (rewrite ?firstn_length; lia); cbn [nth_error] in H.
  - cbn [Nat.mul skipn]. injection H as <-. split; [rewrite firstn_length; lia|reflexivity].
  - apply IH in H. rewrite skip_skip in H. replace (S k * n)%nat with (n + k * n)%nat by lia. exact H.
Qed.

(** * Rounding *)
Lemma sum_near M l : 0 <= M <= 2 ^ 900 -> Forall (fun v => finite v /\ Rabs (val v) <= M) l -> forall k s x, (INR (k + length l) <= 2 ^ 52) -> finite s ->
  Rabs (val s - x) <= ((1 + uu) ^ k - 1) * (INR k * M) -> Rabs x <= INR k * M ->
  finite (fold_left dadd l s) /\ Rabs (val (fold_left dadd l s) - (x + total_of l)) <= ((1 + uu) ^ (k + length l) - 1) * (INR (k + length l) * M) /\
  Rabs (x + total_of l) <= INR (k + length l) * M.
Proof.
  intros HM Hl. induction Hl as [|v l [Fv Bv] Hl IH]; intros k s x Hk Fs Es Bx; cbn [fold_left total_of fold_right length] in *.
  - rewrite Nat.add_0_r, Rplus_0_r in *. auto.
  - assert (K0 : 0 <= INR k) by apply pos_INR. assert (K1 : INR k <= 2 ^ 52) by (eapply Rle_trans; [apply le_INR|exact Hk]; lia).
    assert (S0 : 0 <= INR k * M) by (apply Rmult_le_pos; lra).
    assert (Bs : Rabs (val s) <= (1 + uu) ^ k * (INR k * M)) by (eapply size_of; eassumption).
    pose proof (growth_le2 k K1) as G2.
    assert (KM : INR k * M <= 2 ^ 52 * 2 ^ 900) by (apply Rmult_le_compat; lra). rewrite <- pow_add in KM. change (52 + 900)%nat with 952%nat in KM.
    assert (Q : (1 + uu) ^ k * (INR k * M) <= 2 * 2 ^ 952) by (apply Rmult_le_compat; auto; pose proof (pow_u_ge1 k); lra).
    assert (B : Rabs (val s + val v) <= 2 ^ 1002).
    { eapply Rle_trans; [apply Rabs_triang|]. pose proof (pow_step 900 952 ltac:(lia)). pose proof (pow_step 954 1002 ltac:(lia)). assert (2 ^ 954 = 4 * 2 ^ 952) by ring. lra. }
    destruct (add_correct s v Fs Fv B) as (F & e & He & E).
    pose proof (one_more _ _ _ _ _ _ e Es Bx Bv (pow_u_ge1 k) S0 He) as O. rewrite <- E in O.
    assert (SK : INR k * M + M = INR (S k) * M) by (rewrite S_INR; ring).
    replace ((1 + uu) ^ k * (1 + uu)) with ((1 + uu) ^ S k) in O by (cbn; ring). rewrite SK in O.
    destruct (IH (S k) (dadd s v) (x + val v)) as (A1 & A2 & A3); auto.
    + replace (S k + length l)%nat with (k + S (length l))%nat by lia. exact Hk.
    + rewrite <- SK. eapply Rle_trans; [apply Rabs_triang|]. lra.
    + replace (k + S (length l))%nat with (S k + length l)%nat by lia. fold (total_of l) in *. rewrite <- Rplus_assoc. auto.
Qed.
Lemma avg_near M l : 0 <= M <= 2 ^ 900 -> Forall (fun v => finite v /\ Rabs (val v) <= M) l -> (0 < length l)%nat -> INR (length l) <= 2 ^ 50 ->
  finite (avg l) /\ Rabs (val (avg l) - mean l) <= INR (length l + 2) * eps * M + / 2 ^ 1075.
Proof.
  intros HM Hl P0 H50. set (n := length l) in *. assert (Pn : 1 <= INR n) by (replace 1 with (INR 1) by reflexivity; apply le_INR; lia).
  assert (H52 : INR (n + 2) <= 2 ^ 52) by (rewrite plus_INR; assert (2 ^ 52 = 4 * 2 ^ 50) by ring; assert (1 <= 2 ^ 50) by (apply pow_R1_Rle; lra); cbn [INR]; lra).
  destruct (sum_near M l HM Hl 0 dzero 0) as (Fs & Es & Bx); [cbn [Nat.add]; fold n; eapply Rle_trans; [apply le_INR|exact H52]; lia|reflexivity| |rewrite Rabs_R0; cbn [INR]; lra|].
  { rewrite zero_val, Rminus_0_r, Rabs_R0. cbn. lra. }
  rewrite Rplus_0_l in Es, Bx. cbn [Nat.add] in Es, Bx. fold n in Es, Bx. set (a := fold_left dadd l dzero) in *. set (x := total_of l) in *.
  assert (Nz : (0 <= Z.of_nat n <= 2 ^ 52)%Z).
  { split; [lia|]. apply le_IZR. rewrite <- INR_IZR_INZ. change (2 ^ 52)%Z with (2 ^ Z.of_nat 52)%Z. rewrite <- pow_IZR.
    pose proof (pow_step 50 52 ltac:(lia)). lra. }
  destruct (of_int (Z.of_nat n) Nz) as [Fn Vn]. rewrite <- INR_IZR_INZ in Vn. destruct (of_int 1 ltac:(lia)) as [F1 V1].
  assert (In : 0 < / INR n <= 1) by (split; [apply Rinv_0_lt_compat; lra|rewrite <- Rinv_1; apply Rinv_le; lra]).
  assert (Q1 : Rabs (val (dofZ 1) / val (dofZ (Z.of_nat n))) = / INR n) by (rewrite V1, Vn, Rabs_pos_eq; unfold Rdiv; lra).
  destruct (div_correct (dofZ 1) (dofZ (Z.of_nat n)) F1) as (Fd & e1 & He1 & Ed); [rewrite Vn; lra| | |].
  { rewrite Q1. apply Rle_trans with 1; [lra|]. apply pow_R1_Rle; lra. }
  { rewrite Q1. apply Rinv_le; [lra|]. eapply Rle_trans; [exact H50|]. apply pow_step. lia. }
  rewrite V1, Vn in Ed. set (al := ddiv (dofZ 1) (dofZ (Z.of_nat n))) in *.
  assert (SM : 0 <= INR n * M) by (apply Rmult_le_pos; lra).
  assert (O1 := one_more _ _ _ _ 0 0 e1 Es Bx ltac:(rewrite Rabs_R0; lra) (pow_u_ge1 n) SM He1). rewrite !Rplus_0_r in O1.
  replace ((1 + uu) ^ n * (1 + uu)) with ((1 + uu) ^ S n) in O1 by (cbn; ring).
  assert (A1 : val al * val a = val a * (1 + e1) * / INR n) by (rewrite Ed; field; lra).
  assert (H52' : INR (S n) <= 2 ^ 52) by (eapply Rle_trans; [apply le_INR|exact H52]; lia).
  assert (B1 : Rabs (val a * (1 + e1)) <= 2 * (INR n * M)) by (eapply Rle_trans; [eapply size_of; eassumption|]; apply Rmult_le_compat_r; [exact SM|now apply growth_le2]).
  assert (SM2 : INR n * M * / INR n = M) by (field; lra).
  destruct (mul_rnd al a Fd Fs) as [F E].
  { rewrite A1, Rabs_mult, (Rabs_pos_eq (/ INR n)) by lra. apply Rle_trans with (2 * (INR n * M) * / INR n); [apply Rmult_le_compat_r; lra|].
    replace (2 * (INR n * M) * / INR n) with (2 * M) by (field; lra). pose proof (pow_step 901 1002 ltac:(lia)). assert (2 ^ 901 = 2 * 2 ^ 900) by ring. lra. }
  split; [exact F|]. unfold avg. fold n. fold al. fold a. rewrite E. destruct (rnd_form (val al * val a)) as (e2 & h & He2 & Hh & ->). rewrite A1. unfold mean. fold x. fold n.
  assert (O2 := one_more _ _ _ _ 0 0 e2 O1 Bx ltac:(rewrite Rabs_R0; lra) (pow_u_ge1 (S n)) SM He2). rewrite !Rplus_0_r in O2.
  replace ((1 + uu) ^ S n * (1 + uu)) with ((1 + uu) ^ (n + 2)) in O2 by (rewrite pow_add; cbn; ring).
  replace (val a * (1 + e1) * / INR n * (1 + e2) + h - x / INR n) with ((val a * (1 + e1) * (1 + e2) - x) * / INR n + h) by (field; lra).
  eapply Rle_trans; [apply Rabs_triang|]. apply Rplus_le_compat; [|exact Hh]. rewrite Rabs_mult, (Rabs_pos_eq (/ INR n)) by lra.
  apply Rle_trans with (((1 + uu) ^ (n + 2) - 1) * (INR n * M) * / INR n); [apply Rmult_le_compat_r; lra|].
  replace (((1 + uu) ^ (n + 2) - 1) * (INR n * M) * / INR n) with (((1 + uu) ^ (n + 2) - 1) * M) by (field; lra).
  apply Rmult_le_compat_r; [lra|]. now apply growth.
Qed.
