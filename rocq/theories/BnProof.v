From Coq Require Import ZifyBool.
From Verif Require Import Prelude ZSum RSum MatModel BnModel BnSpec.
Local Open Scope R_scope.

Lemma mmul_ext N A A' B B' : meq N A A' -> meq N B B' -> meq N (mmul N A B) (mmul N A' B').
Proof. intros HA HB i j Hi Hj. apply zsum_ext. intros l Hl. rewrite HA, HB by lia. reflexivity. Qed.
Lemma mident_sum N v j : (0 <= j < N)%Z -> zsum (fun l => v l * mident l j) 0 N = v j.
Proof.
  intros Hj. unfold zsum. rewrite (sumR_single _ _ j); [|apply zrange_NoDup|now apply zrange_In|].
  - unfold mident. rewrite Z.eqb_refl. lra.
  - intros l _ Hl. unfold mident. replace (l =? j)%Z with false by lia. lra.
Qed.
Lemma mdiagonal_sum N v i (B : mat) j : (0 <= i < N)%Z -> zsum (fun l => mdiagonal v i l * B l j) 0 N = v i * B i j.
Proof.
  intros Hi. unfold zsum. rewrite (sumR_single _ _ i); [|apply zrange_NoDup|now apply zrange_In|].
  - unfold mdiagonal. rewrite Z.eqb_refl. lra.
  - intros l _ Hl. unfold mdiagonal. replace (i =? l)%Z with false by lia. lra.
Qed.
Lemma mdiagonal_sum_r N v j (A : mat) i : (0 <= j < N)%Z -> zsum (fun l => A i l * mdiagonal v l j) 0 N = A i j * v j.
Proof.
  intros Hj. unfold zsum. rewrite (sumR_single _ _ j); [|apply zrange_NoDup|now apply zrange_In|].
  - unfold mdiagonal. rewrite Z.eqb_refl. lra.
  - intros l _ Hl. unfold mdiagonal. replace (l =? j)%Z with false by lia. lra.
Qed.
Lemma mmul_ident N A : meq N (mmul N A mident) A.
Proof. intros i j Hi Hj. apply (mident_sum N (A i)). lia. Qed.
Lemma mmul_assoc N A B C i j : mmul N (mmul N A B) C i j = mmul N A (mmul N B C) i j.
Proof.
  unfold mmul, zsum.
  rewrite (sumR_ext _ (fun l => sumR (fun k => A i k * B k l * C l j) (zrange 0 N))) by (intros; now rewrite <- sumR_scal_r).
  rewrite sumR_swap. apply sumR_ext. intros k _. rewrite <- sumR_scal. apply sumR_ext. intros; lra.
Qed.

(** The successive products are powers. *)
Lemma bn_power_pow N L term : (2 <= term)%Z -> meq N (bn_power N L L term) (mpow N L (Z.to_nat (term - 1))).
Proof.
  intros Ht. unfold bn_power. pattern term. apply (zrange_ind_up _ 2); auto.
  - rewrite zrange_nil by lia. cbn [fold_left]. change (Z.to_nat (2 - 1)) with 1%nat. cbn [mpow]. intros i j Hi Hj. symmetry. now apply mmul_ident.
  - intros b Hb IH. rewrite zrange_snoc by lia. replace (b + 1 - 1)%Z with b by lia. rewrite fold_left_app. cbn [fold_left].
    replace (Z.to_nat b) with (S (Z.to_nat (b - 1))) by lia. cbn [mpow]. apply mmul_ext; [intros ? ? ? ?; reflexivity|exact IH].
Qed.

Lemma mpow_scale N a A k i j : (0 <= i < N)%Z -> (0 <= j < N)%Z -> mpow N (mscale a A) k i j = a ^ k * mpow N A k i j.
Proof.
  revert i j. induction k as [|k IH]; intros i j Hi Hj; [cbn; lra|]. cbn [mpow pow]. unfold mmul at 1 2.
  unfold zsum. rewrite <- sumR_scal. apply sumR_ext. intros l Hl. apply zrange_In in Hl. rewrite IH by lia. unfold mscale. lra.
Qed.

(** Generic series: B_n = S (sum of dt (c dt)^k P^k), then A B = T - remainder. *)
Section Series.
Variables (N : Z) (dt c : R) (B0 : mat) (A : mat) (T : Z -> mat) (Q : Z -> mat).
Hypothesis H0 : meq N (mmul N A B0) (msub mident (T 1%Z)).
Hypothesis HS : forall t, (2 <= t)%Z -> meq N (mmul N A (mscale (bn_coeff dt c t) (Q t))) (msub (T (t - 1)%Z) (T t)).
Lemma series n : (1 <= n)%Z ->
  meq N (mmul N A (fold_left (fun B t => maxpy B (bn_coeff dt c t) (Q t)) (zrange 2 (n + 1)) B0)) (msub mident (T n)).
Proof.
  intros Hn. pattern n. apply (zrange_ind_up _ 1); auto.
  intros b Hb IH. rewrite zrange_snoc by lia. replace (b + 1 + 1 - 1)%Z with (b + 1)%Z by lia. rewrite fold_left_app. cbn [fold_left].
  intros i j Hi Hj. specialize (IH i j Hi Hj). pose proof (HS (b + 1)%Z ltac:(lia) i j Hi Hj) as S. replace (b + 1 - 1)%Z with b in S by lia.
  set (Bb := fold_left _ _ _) in *. unfold mmul, maxpy in *. unfold mscale, msub in *.
  rewrite (zsum_ext _ (fun l => A i l * Bb l j + A i l * (bn_coeff dt c (b + 1) * Q (b + 1)%Z l j))) by (intros; lra).
  unfold zsum in *. rewrite sumR_plus. rewrite IH, S. lra.
Qed.
End Series.

Lemma pow_split dt c t : dt <> 0 -> (2 <= t)%Z -> bn_coeff dt c t / dt = (c * dt) ^ Z.to_nat (t - 1) /\ bn_coeff dt c t * c = (c * dt) ^ Z.to_nat t.
Proof.
  intros Hdt Ht. unfold bn_coeff. replace (Z.to_nat t) with (S (Z.to_nat (t - 1))) by lia. rewrite !Rpow_mult_distr. cbn [pow].
  split; field; auto.
Qed.

Theorem bnhead_lemma N Op dt c n : dt <> 0 -> (1 <= n)%Z ->
  exists B, createBnHead N Op dt c n = Ok B /\
    meq N (mmul N (implicit_matrix mident dt c Op) B) (msub mident (mpow N (mscale (c * dt) Op) (Z.to_nat n))).
Proof.
  intros Hdt Hn. unfold createBnHead. replace (n <? 1)%Z with false by lia.
  set (Q := fun t => bn_power N Op Op t). set (T := fun t => mpow N (mscale (c * dt) Op) (Z.to_nat t)).
  set (A := implicit_matrix mident dt c Op).
  exists (fold_left (fun B t => maxpy B (bn_coeff dt c t) (Q t)) (zrange 2 (n + 1)) (mshift mzero dt)). split.
  - destruct (Z.eqb_spec n 1) as [->|Hne]; reflexivity.
  - apply (series N dt c (mshift mzero dt) A T Q); auto.
    + intros i j Hi Hj. unfold T. change (Z.to_nat 1) with 1%nat. cbn [mpow]. unfold mmul at 1.
      rewrite (zsum_ext _ (fun l => A i l * dt * mident l j)).
      2: { intros l _. unfold mshift, mzero, mident. destruct (l =? j)%Z; lra. }
      rewrite (mident_sum N (fun l => A i l * dt)) by lia. unfold msub. rewrite mmul_ident by lia. unfold A, implicit_matrix, mscale. field. auto.
    + intros t Ht i j Hi Hj. destruct (pow_split dt c t Hdt Ht) as [P1 P2].
      assert (E : meq N (Q t) (mpow N Op (Z.to_nat (t - 1)))) by now apply bn_power_pow.
      unfold mmul at 1. rewrite (zsum_ext _ (fun l => bn_coeff dt c t / dt * (mpow N Op (Z.to_nat (t - 1)) l j * mident i l) - bn_coeff dt c t * c * (Op i l * mpow N Op (Z.to_nat (t - 1)) l j))).
      2: { intros l Hl. unfold mscale. rewrite E by lia. unfold A, implicit_matrix. field. auto. }
      unfold zsum. rewrite sumR_minus, !sumR_scal. rewrite P1, P2. unfold msub, T. rewrite !mpow_scale by lia. f_equal.
      * f_equal. unfold mident. rewrite (sumR_single _ _ i); [rewrite Z.eqb_refl; lra|apply zrange_NoDup|now apply zrange_In|].
        intros l _ Hl. replace (i =? l)%Z with false by lia. lra.
      * f_equal. replace (Z.to_nat t) with (S (Z.to_nat (t - 1))) by lia. reflexivity.
Qed.

(** diag(r) B diag(1/m) *)
Theorem bn_rm_lemma N Op Rm MH dt c n : dt <> 0 -> (1 <= n)%Z -> nonzero N (mdiag Rm) -> nonzero N (mdiag MH) ->
  exists B, createBn_RM N Op Rm MH dt c n = Ok B /\
    meq N (mmul N (mdscale (mdiag MH) (vrecip (mdiag Rm)) (implicit_matrix mident dt c Op)) B)
          (msub mident (mdscale (mdiag MH) (vrecip (mdiag MH)) (mpow N (mscale (c * dt) Op) (Z.to_nat n)))).
Proof.
  intros Hdt Hn HR HM. destruct (bnhead_lemma N Op dt c n Hdt Hn) as (B & EB & HB). unfold createBn_RM. rewrite EB. cbn [bind]. eexists. split; [reflexivity|].
  intros i j Hi Hj. specialize (HB i j Hi Hj). unfold mmul, mdscale, msub in *.
  rewrite (zsum_ext _ (fun l => mdiag MH i * vrecip (mdiag MH) j * (implicit_matrix mident dt c Op i l * B l j))).
  - unfold zsum in *. rewrite sumR_scal, HB. pose proof (HM i Hi) as Hmi. unfold mident. destruct (Z.eqb_spec i j) as [->|]; [|lra].
    unfold vrecip. destruct (Req_EM_T (mdiag MH j) 0); [contradiction|]. field. auto.
  - intros l Hl. pose proof (HR l Hl) as Hr. unfold vrecip at 1. destruct (Req_EM_T (mdiag Rm l) 0); [contradiction|]. field. auto.
Qed.

Definition mass_power (N : Z) (mi : vec) (Op : mat) (k : nat) : mat := mpow N (mdscale vones mi Op) k.

(** (D L)^k D = D (L D)^k with D = diag(mi) *)
Lemma diag_commute N mi Op k i j : (0 <= i < N)%Z -> (0 <= j < N)%Z ->
  mpow N (mdscale mi vones Op) k i j * mi j = mi i * mass_power N mi Op k i j.
Proof.
  unfold mass_power. revert i j. induction k as [|k IH]; intros i j Hi Hj.
  - cbn [mpow]. unfold mident. destruct (Z.eqb_spec i j) as [->|]; lra.
  - cbn [mpow]. unfold mmul, zsum. rewrite <- sumR_scal_r, <- sumR_scal. apply sumR_ext. intros l Hl. apply zrange_In in Hl.
    rewrite Rmult_assoc, IH by lia. unfold mdscale at 1 3, vones. lra.
Qed.

Theorem bn_m_lemma N Op M dt c n : dt <> 0 -> (1 <= n)%Z -> nonzero N (mdiag M) ->
  (forall i j, (0 <= i < N)%Z -> (0 <= j < N)%Z -> i <> j -> M i j = 0) ->
  exists B, createBn_M N Op M dt c n = Ok B /\
    meq N (mmul N (implicit_matrix M dt c Op) B)
          (msub mident (mpow N (mscale (c * dt) (mdscale vones (vrecip (mdiag M)) Op)) (Z.to_nat n))).
Proof.
  intros Hdt Hn HM Hoff. unfold createBn_M. replace (n <? 1)%Z with false by lia. set (mi := vrecip (mdiag M)).
  assert (Hmi : forall i, (0 <= i < N)%Z -> M i i * mi i = 1).
  { intros i Hi. unfold mi, vrecip. destruct (Req_EM_T (mdiag M i) 0) as [E|E]; [exfalso; now apply (HM i)|]. unfold mdiag in *. field. auto. }
  set (L := mdscale mi vones Op).
  set (Q := fun t => mdscale vones mi (bn_power N L L t)). set (T := fun t => mpow N (mscale (c * dt) (mdscale vones mi Op)) (Z.to_nat t)).
  set (A := implicit_matrix M dt c Op). set (B0 := mscale dt (mdset mzero mi)).
  exists (fold_left (fun B t => maxpy B (bn_coeff dt c t) (Q t)) (zrange 2 (n + 1)) B0). split.
  - destruct (Z.eqb_spec n 1) as [->|Hne]; reflexivity.
  - assert (EA : meq N A (fun i j => mdiagonal (fun k => M k k / dt) i j - c * Op i j)).
    { intros i j Hi Hj. unfold A, implicit_matrix, mdiagonal. destruct (Z.eqb_spec i j) as [->|Hne]; [reflexivity|]. rewrite Hoff by auto. lra. }
    apply (series N dt c B0 A T Q); auto.
    + intros i j Hi Hj. unfold T. change (Z.to_nat 1) with 1%nat. cbn [mpow]. unfold mmul at 1.
      rewrite (zsum_ext _ (fun l => A i l * (dt * mi l) * mident l j)).
      2: { intros l _. unfold B0, mscale, mdset, mzero, mident. destruct (l =? j)%Z; lra. }
      rewrite (mident_sum N (fun l => A i l * (dt * mi l))) by lia. unfold msub. rewrite mmul_ident by lia. rewrite EA by lia.
      unfold mdiagonal, mscale, mdscale, vones, mident. destruct (Z.eqb_spec i j) as [->|]; [|lra].
      replace ((M j j / dt - c * Op j j) * (dt * mi j)) with (M j j * mi j - c * dt * (1 * Op j j * mi j)) by (field; auto). rewrite Hmi by lia. lra.
    + intros t Ht i j Hi Hj. destruct (pow_split dt c t Hdt Ht) as [P1 P2].
      set (P := mass_power N mi Op (Z.to_nat (t - 1))).
      assert (E : forall l, (0 <= l < N)%Z -> Q t l j = mi l * P l j).
      { intros l Hl. unfold Q, mdscale, vones. rewrite (bn_power_pow N L t Ht) by lia. rewrite Rmult_1_l. now apply diag_commute. }
      unfold mmul at 1. rewrite (zsum_ext _ (fun l => bn_coeff dt c t / dt * (mdiagonal (fun k => M k k) i l * (mi l * P l j)) - bn_coeff dt c t * c * (mdscale vones mi Op i l * P l j))).
      2: { intros l Hl. unfold mscale. rewrite E, EA by lia. unfold mdiagonal, mdscale, vones. destruct (i =? l)%Z; field; auto. }
      unfold zsum. rewrite sumR_minus, !sumR_scal. rewrite P1, P2.
      pose proof (mdiagonal_sum N (fun k => M k k) i (fun l j => mi l * P l j) j Hi) as DS. unfold zsum in DS. rewrite DS. rewrite <- Rmult_assoc with (r1 := M i i), Hmi by lia.
      unfold msub, T. rewrite !mpow_scale by lia. f_equal.
      * unfold P, mass_power. lra.
      * f_equal. replace (Z.to_nat t) with (S (Z.to_nat (t - 1))) by lia. reflexivity.
Qed.
