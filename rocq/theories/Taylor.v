(** Difference quotients of smooth functions of one variable. *)
From Coq Require Import Reals Lra.
Local Open Scope R_scope.

(** A function that starts at 0 and whose derivative is at most C t^n is at
    most C t^(n+1) / (n+1). *)
Lemma grow (F F' : R -> R) (C : R) (n : nat) (h : R) :
  F 0 = 0 -> (forall t, 0 <= t <= h -> derivable_pt_lim F t (F' t)) -> (forall t, 0 <= t <= h -> Rabs (F' t) <= C * t ^ n) ->
  forall t, 0 <= t <= h -> Rabs (F t) <= C / INR (S n) * t ^ (S n).
Proof.
  intros F0 HF HB t Ht. destruct (Req_dec t 0) as [->|Hne].
  { rewrite F0, Rabs_R0, pow_ne_zero by discriminate. lra. }
  assert (Hn : INR (S n) <> 0) by (apply not_0_INR; discriminate).
  assert (K : forall sg, sg * sg = 1 -> 0 <= C / INR (S n) * t ^ (S n) - sg * F t).
  { intros sg Hsg.
    destruct (MVT_cor2 (fun t => C / INR (S n) * t ^ (S n) - sg * F t) (fun t => C / INR (S n) * (INR (S n) * t ^ n) - sg * F' t) 0 t) as (c & Ec & Hc); [lra| |].
    - intros c Hc. apply derivable_pt_lim_minus; apply derivable_pt_lim_scal.
      + apply (derivable_pt_lim_pow c (S n)).
      + apply HF. lra.
    - cbv beta in Ec. rewrite F0, (pow_ne_zero (S n)), !Rmult_0_r in Ec by discriminate.
      assert (E1 : C / INR (S n) * (INR (S n) * c ^ n) = C * c ^ n) by (field; exact Hn). rewrite E1 in Ec.
      specialize (HB c ltac:(lra)).
      assert (X : 0 <= C * c ^ n - sg * F' c).
      { assert (Y : sg * F' c <= Rabs (sg * F' c)) by apply RRle_abs. rewrite Rabs_mult in Y.
        assert (Z : Rabs sg = 1). { assert (Rabs sg * Rabs sg = 1) by (rewrite <- Rabs_mult, Hsg; apply Rabs_R1). pose proof (Rabs_pos sg). nra. }
        rewrite Z in Y. lra. }
      assert (P : 0 <= (C * c ^ n - sg * F' c) * (t - 0)) by (apply Rmult_le_pos; lra). lra. }
  apply Rabs_le. pose proof (K 1 ltac:(lra)). pose proof (K (-1) ltac:(lra)). lra.
Qed.

Lemma lim_plus g x t l : derivable_pt_lim g (x + t) l -> derivable_pt_lim (fun s => g (x + s)) t l.
Proof.
  intros H eps He. destruct (H eps He) as (d & Hd). exists d. intros k Hk Hl. specialize (Hd k Hk Hl). now rewrite <- Rplus_assoc.
Qed.
Lemma lim_minus g x t l : derivable_pt_lim g (x - t) l -> derivable_pt_lim (fun s => g (x - s)) t (- l).
Proof.
  intros H eps He. destruct (H eps He) as (d & Hd). exists d. intros k Hk Hl.
  specialize (Hd (- k) ltac:(lra) ltac:(now rewrite Rabs_Ropp)). replace (x - (t + k)) with (x - t + - k) by lra.
  replace ((g (x - t + - k) - g (x - t)) / k - - l) with (- ((g (x - t + - k) - g (x - t)) / - k - l)) by (field; lra). now rewrite Rabs_Ropp.
Qed.

Section Differences.
Context (g g1 g2 g3 g4 : R -> R) (x h : R) (Hh : 0 <= h).
Context (H1 : forall t, Rabs (t - x) <= h -> derivable_pt_lim g t (g1 t)).

Lemma near_p t : 0 <= t <= h -> Rabs (x + t - x) <= h.
Proof. intros H. replace (x + t - x) with t by lra. rewrite Rabs_pos_eq; lra. Qed.
Lemma near_m t : 0 <= t <= h -> Rabs (x - t - x) <= h.
Proof. intros H. replace (x - t - x) with (- t) by lra. rewrite Rabs_Ropp, Rabs_pos_eq; lra. Qed.
Lemma near_0 : Rabs (x - x) <= h.
Proof. replace (x - x) with 0 by lra. now rewrite Rabs_R0. Qed.

(** One-sided differences. *)
Lemma forward M2 : (forall t, Rabs (t - x) <= h -> derivable_pt_lim g1 t (g2 t)) -> (forall t, Rabs (t - x) <= h -> Rabs (g2 t) <= M2) ->
  Rabs (g (x + h) - g x - h * g1 x) <= M2 / 2 * h ^ 2.
Proof.
  intros H2 B2.
  assert (A : forall t, 0 <= t <= h -> Rabs (g1 (x + t) - g1 x) <= M2 / INR 1 * t ^ 1).
  { apply (grow (fun t => g1 (x + t) - g1 x) (fun t => g2 (x + t)) M2 0).
    - rewrite Rplus_0_r. lra.
    - intros t Ht. replace (g2 (x + t)) with (g2 (x + t) - 0) by lra. apply derivable_pt_lim_minus; [|apply derivable_pt_lim_const]. apply lim_plus, H2, near_p; auto.
    - intros t Ht. simpl. rewrite Rmult_1_r. apply B2, near_p; auto. }
  replace (M2 / 2) with (M2 / INR 1 / INR 2) by (simpl; lra). 
  apply (grow (fun t => g (x + t) - g x - t * g1 x) (fun t => g1 (x + t) - g1 x) (M2 / INR 1) 1 h); [rewrite Rplus_0_r; lra| |exact A|lra].
  intros t Ht. replace (g1 (x + t) - g1 x) with (g1 (x + t) - 0 - 1 * g1 x) by lra.
  apply derivable_pt_lim_minus; [apply derivable_pt_lim_minus; [|apply derivable_pt_lim_const]|].
  - apply lim_plus, H1, near_p; auto.
  - replace (1 * g1 x) with (1 * g1 x + t * 0) by lra. apply (derivable_pt_lim_mult (fun t => t) (fun _ => g1 x)); [apply derivable_pt_lim_id|apply derivable_pt_lim_const].
Qed.

(** The mean of the two neighbours. *)
Lemma mean M2 : (forall t, Rabs (t - x) <= h -> derivable_pt_lim g1 t (g2 t)) -> (forall t, Rabs (t - x) <= h -> Rabs (g2 t) <= M2) ->
  Rabs (g (x + h) + g (x - h) - 2 * g x) <= M2 * h ^ 2.
Proof.
  intros H2 B2.
  assert (A : forall t, 0 <= t <= h -> Rabs (g1 (x + t) - g1 (x - t)) <= 2 * M2 / INR 1 * t ^ 1).
  { apply (grow (fun t => g1 (x + t) - g1 (x - t)) (fun t => g2 (x + t) - - g2 (x - t)) (2 * M2) 0).
    - rewrite Rplus_0_r, Rminus_0_r. lra.
    - intros t Ht. apply derivable_pt_lim_minus; [apply lim_plus, H2, near_p; auto|apply lim_minus, H2, near_m; auto].
    - intros t Ht. simpl. rewrite Rmult_1_r. pose proof (B2 _ (near_p t Ht)). pose proof (B2 _ (near_m t Ht)).
      replace (g2 (x + t) - - g2 (x - t)) with (g2 (x + t) + g2 (x - t)) by lra. eapply Rle_trans; [apply Rabs_triang|]. lra. }
  replace M2 with (2 * M2 / INR 1 / INR 2) by (simpl; lra).
  apply (grow (fun t => g (x + t) + g (x - t) - 2 * g x) (fun t => g1 (x + t) - g1 (x - t)) (2 * M2 / INR 1) 1 h); [rewrite Rplus_0_r, Rminus_0_r; lra| |exact A|lra].
  intros t Ht. replace (g1 (x + t) - g1 (x - t)) with (g1 (x + t) + - g1 (x - t) - 0) by lra.
  apply derivable_pt_lim_minus; [apply derivable_pt_lim_plus|apply derivable_pt_lim_const].
  - apply lim_plus, H1, near_p; auto.
  - apply lim_minus, H1, near_m; auto.
Qed.

(** The central first difference. *)
Lemma central M3 : (forall t, Rabs (t - x) <= h -> derivable_pt_lim g1 t (g2 t)) -> (forall t, Rabs (t - x) <= h -> derivable_pt_lim g2 t (g3 t)) ->
  (forall t, Rabs (t - x) <= h -> Rabs (g3 t) <= M3) ->
  Rabs (g (x + h) - g (x - h) - 2 * h * g1 x) <= M3 / 3 * h ^ 3.
Proof.
  intros H2 H3 B3.
  assert (A : forall t, 0 <= t <= h -> Rabs (g2 (x + t) - g2 (x - t)) <= 2 * M3 / INR 1 * t ^ 1).
  { apply (grow (fun t => g2 (x + t) - g2 (x - t)) (fun t => g3 (x + t) - - g3 (x - t)) (2 * M3) 0).
    - rewrite Rplus_0_r, Rminus_0_r. lra.
    - intros t Ht. apply derivable_pt_lim_minus; [apply lim_plus, H3, near_p; auto|apply lim_minus, H3, near_m; auto].
    - intros t Ht. simpl. rewrite Rmult_1_r. pose proof (B3 _ (near_p t Ht)). pose proof (B3 _ (near_m t Ht)).
      replace (g3 (x + t) - - g3 (x - t)) with (g3 (x + t) + g3 (x - t)) by lra. eapply Rle_trans; [apply Rabs_triang|]. lra. }
  assert (B : forall t, 0 <= t <= h -> Rabs (g1 (x + t) + g1 (x - t) - 2 * g1 x) <= 2 * M3 / INR 1 / INR 2 * t ^ 2).
  { apply (grow (fun t => g1 (x + t) + g1 (x - t) - 2 * g1 x) (fun t => g2 (x + t) - g2 (x - t)) (2 * M3 / INR 1) 1 h); [rewrite Rplus_0_r, Rminus_0_r; lra| |exact A].
    intros t Ht. replace (g2 (x + t) - g2 (x - t)) with (g2 (x + t) + - g2 (x - t) - 0) by lra.
    apply derivable_pt_lim_minus; [apply derivable_pt_lim_plus|apply derivable_pt_lim_const].
    - apply lim_plus, H2, near_p; auto.
    - apply lim_minus, H2, near_m; auto. }
  replace (M3 / 3) with (2 * M3 / INR 1 / INR 2 / INR 3) by (simpl; lra).
  replace (g (x + h) - g (x - h) - 2 * h * g1 x) with (g (x + h) - g (x - h) - h * (2 * g1 x)) by lra.
  apply (grow (fun t => g (x + t) - g (x - t) - t * (2 * g1 x)) (fun t => g1 (x + t) + g1 (x - t) - 2 * g1 x) (2 * M3 / INR 1 / INR 2) 2 h); [rewrite Rplus_0_r, Rminus_0_r; lra| |exact B|lra].
  intros t Ht. replace (g1 (x + t) + g1 (x - t) - 2 * g1 x) with (g1 (x + t) - - g1 (x - t) - 1 * (2 * g1 x)) by lra.
  apply derivable_pt_lim_minus; [apply derivable_pt_lim_minus|].
  - apply lim_plus, H1, near_p; auto.
  - apply lim_minus, H1, near_m; auto.
  - replace (1 * (2 * g1 x)) with (1 * (2 * g1 x) + t * 0) by lra.
    apply (derivable_pt_lim_mult (fun t => t) (fun _ => 2 * g1 x)); [apply derivable_pt_lim_id|apply derivable_pt_lim_const].
Qed.
End Differences.

(** The central second difference. *)
Lemma second (g g1 g2 g3 g4 : R -> R) (x h M4 : R) : 0 <= h ->
  (forall t, Rabs (t - x) <= h -> derivable_pt_lim g t (g1 t)) ->
  (forall t, Rabs (t - x) <= h -> derivable_pt_lim g1 t (g2 t)) -> (forall t, Rabs (t - x) <= h -> derivable_pt_lim g2 t (g3 t)) ->
  (forall t, Rabs (t - x) <= h -> derivable_pt_lim g3 t (g4 t)) -> (forall t, Rabs (t - x) <= h -> Rabs (g4 t) <= M4) ->
  Rabs (g (x + h) + g (x - h) - 2 * g x - h ^ 2 * g2 x) <= M4 / 12 * h ^ 4.
Proof.
  intros Hh H1 H2 H3 H4 B4.
  assert (B : forall t, 0 <= t <= h -> Rabs (g1 (x + t) - g1 (x - t) - 2 * t * g2 x) <= M4 / 3 * t ^ 3).
  { intros t Ht. assert (W : forall s, Rabs (s - x) <= t -> Rabs (s - x) <= h) by (intros; lra).
    apply (central g1 g2 g3 g4 x t ltac:(lra)); intros; auto. }
  replace (M4 / 12) with (M4 / 3 / INR 4) by (simpl; lra).
  apply (grow (fun t => g (x + t) + g (x - t) - 2 * g x - t ^ 2 * g2 x) (fun t => g1 (x + t) - g1 (x - t) - 2 * t * g2 x) (M4 / 3) 3 h); [rewrite Rplus_0_r, Rminus_0_r; lra| |exact B|lra].
  intros t Ht. replace (g1 (x + t) - g1 (x - t) - 2 * t * g2 x) with (g1 (x + t) + - g1 (x - t) - 0 - (INR 2 * t ^ pred 2 * g2 x + t ^ 2 * 0)) by (simpl; lra).
  apply derivable_pt_lim_minus; [apply derivable_pt_lim_minus; [apply derivable_pt_lim_plus|apply derivable_pt_lim_const]|].
  - apply lim_plus, H1, near_p; auto.
  - apply lim_minus, H1, near_m; auto.
  - apply (derivable_pt_lim_mult (fun t => t ^ 2) (fun _ => g2 x)); [apply derivable_pt_lim_pow|apply derivable_pt_lim_const].
Qed.

(** The difference between two points at unequal distances. *)
Lemma lim_affine g x b t l : derivable_pt_lim g (x + b * t) l -> derivable_pt_lim (fun s => g (x + b * s)) t (b * l).
Proof.
  intros H. replace (b * l) with (l * (0 + b * 1)) by lra.
  apply (derivable_pt_lim_comp (fun s => x + b * s) g t (0 + b * 1) l); [|exact H].
  apply derivable_pt_lim_plus; [apply derivable_pt_lim_const|]. apply derivable_pt_lim_scal. apply derivable_pt_lim_id.
Qed.
Lemma uneven (g g1 g2 g3 : R -> R) (x a b M3 : R) : 0 <= a -> 0 <= b ->
  (forall t, x - a <= t <= x + b -> derivable_pt_lim g t (g1 t)) ->
  (forall t, x - a <= t <= x + b -> derivable_pt_lim g1 t (g2 t)) -> (forall t, x - a <= t <= x + b -> derivable_pt_lim g2 t (g3 t)) ->
  (forall t, x - a <= t <= x + b -> Rabs (g3 t) <= M3) ->
  Rabs (g (x + b) - g (x - a) - (a + b) * g1 x - (b ^ 2 - a ^ 2) / 2 * g2 x) <= M3 / 6 * (a ^ 3 + b ^ 3).
Proof.
  intros Ha Hb H1 H2 H3 B3.
  assert (P : forall t, 0 <= t <= 1 -> x - a <= x + b * t <= x + b) by (intros; nra).
  assert (N : forall t, 0 <= t <= 1 -> x - a <= x + - a * t <= x + b) by (intros; nra).
  assert (L : forall c t, derivable_pt_lim (fun t => c * t) t c).
  { intros c t. pose proof (derivable_pt_lim_scal id c t 1 (derivable_pt_lim_id t)) as X. rewrite Rmult_1_r in X. exact X. }
  assert (Hc : 0 <= b ^ 3 /\ 0 <= a ^ 3) by (split; apply pow_le; lra).
  assert (X : forall t, 0 <= t <= 1 -> Rabs (b ^ 2 * g2 (x + b * t) - a ^ 2 * g2 (x + - a * t) - (b ^ 2 - a ^ 2) * g2 x) <= (b ^ 3 + a ^ 3) * M3 / INR 1 * t ^ 1).
  { apply (grow (fun t => b ^ 2 * g2 (x + b * t) - a ^ 2 * g2 (x + - a * t) - (b ^ 2 - a ^ 2) * g2 x)
                (fun t => b ^ 2 * (b * g3 (x + b * t)) - a ^ 2 * (- a * g3 (x + - a * t)) - 0)).
    - rewrite !Rmult_0_r, !Rplus_0_r. lra.
    - intros t Ht. apply derivable_pt_lim_minus; [apply derivable_pt_lim_minus|apply derivable_pt_lim_const];
        apply derivable_pt_lim_scal, lim_affine, H3; auto.
    - intros t Ht. simpl (t ^ 0). rewrite Rmult_1_r. pose proof (B3 _ (P t Ht)) as C1. pose proof (B3 _ (N t Ht)) as C2. revert C1 C2.
      generalize (g3 (x + b * t)) (g3 (x + - a * t)). intros u w C1 C2. replace (b ^ 2 * (b * u) - a ^ 2 * (- a * w) - 0) with (b ^ 3 * u + a ^ 3 * w) by ring.
      eapply Rle_trans; [apply Rabs_triang|]. rewrite !Rabs_mult, (Rabs_pos_eq (b ^ 3)), (Rabs_pos_eq (a ^ 3)) by lra. nra. }
  assert (Y : forall t, 0 <= t <= 1 -> Rabs (b * g1 (x + b * t) + a * g1 (x + - a * t) - (a + b) * g1 x - (b ^ 2 - a ^ 2) * g2 x * t) <= (b ^ 3 + a ^ 3) * M3 / INR 1 / INR 2 * t ^ 2).
  { apply (grow (fun t => b * g1 (x + b * t) + a * g1 (x + - a * t) - (a + b) * g1 x - (b ^ 2 - a ^ 2) * g2 x * t)
                (fun t => b ^ 2 * g2 (x + b * t) - a ^ 2 * g2 (x + - a * t) - (b ^ 2 - a ^ 2) * g2 x)); [rewrite !Rmult_0_r, !Rplus_0_r; lra| |exact X].
    intros t Ht. replace (b ^ 2 * g2 (x + b * t) - a ^ 2 * g2 (x + - a * t) - (b ^ 2 - a ^ 2) * g2 x)
      with (b * (b * g2 (x + b * t)) + a * (- a * g2 (x + - a * t)) - 0 - (b ^ 2 - a ^ 2) * g2 x) by ring.
    apply derivable_pt_lim_minus; [apply derivable_pt_lim_minus; [apply derivable_pt_lim_plus|apply derivable_pt_lim_const]|apply L];
      apply derivable_pt_lim_scal, lim_affine, H2; auto. }
  assert (Z : forall t, 0 <= t <= 1 -> Rabs (g (x + b * t) - g (x + - a * t) - (a + b) * g1 x * t - (b ^ 2 - a ^ 2) * g2 x / 2 * t ^ 2) <= (b ^ 3 + a ^ 3) * M3 / INR 1 / INR 2 / INR 3 * t ^ 3).
  { apply (grow (fun t => g (x + b * t) - g (x + - a * t) - (a + b) * g1 x * t - (b ^ 2 - a ^ 2) * g2 x / 2 * t ^ 2)
                (fun t => b * g1 (x + b * t) + a * g1 (x + - a * t) - (a + b) * g1 x - (b ^ 2 - a ^ 2) * g2 x * t)); [rewrite !Rmult_0_r, !Rplus_0_r; simpl; lra| |exact Y].
    intros t Ht. replace (b * g1 (x + b * t) + a * g1 (x + - a * t) - (a + b) * g1 x - (b ^ 2 - a ^ 2) * g2 x * t)
      with (b * g1 (x + b * t) - - a * g1 (x + - a * t) - (a + b) * g1 x - (b ^ 2 - a ^ 2) * g2 x / 2 * (INR 2 * t ^ pred 2)) by (simpl; field).
    apply derivable_pt_lim_minus; [apply derivable_pt_lim_minus; [apply derivable_pt_lim_minus|apply L]|apply derivable_pt_lim_scal, derivable_pt_lim_pow];
      apply lim_affine, H1; auto. }
  specialize (Z 1 ltac:(lra)). rewrite !Rmult_1_r in Z. simpl INR in Z.
  replace (x - a) with (x + - a) by lra.
  replace (g (x + b) - g (x + - a) - (a + b) * g1 x - (b ^ 2 - a ^ 2) / 2 * g2 x) with (g (x + b) - g (x + - a) - (a + b) * g1 x - (b ^ 2 - a ^ 2) * g2 x / 2 * 1 ^ 2) by (simpl; field).
  eapply Rle_trans; [exact Z|]. simpl. lra.
Qed.
