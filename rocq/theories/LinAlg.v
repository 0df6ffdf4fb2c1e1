(** Linear algebra: a square system with at most one solution has one. *)
From Coq Require Import Lia ZifyBool.
From Verif Require Import Prelude ZSum RSum OperatorModel MatModel NSSpec.
Local Open Scope R_scope.

Definition skipj (j k : Z) : Z := if (k <? j)%Z then k else (k + 1)%Z.
Lemma zsum_skip f n j : (0 <= j < n)%Z -> zsum f 0 n = f j + zsum (fun k => f (skipj j k)) 0 (n - 1).
Proof.
  intros Hj. unfold zsum. rewrite (zrange_app 0 j n), sumR_app by lia. rewrite (zrange_cons j n) by lia. cbn [sumR].
  rewrite (zrange_app 0 j (n - 1)), sumR_app by lia.
  assert (E1 : sumR (fun k => f (skipj j k)) (zrange 0 j) = sumR f (zrange 0 j)).
  { apply sumR_ext. intros k Hk. apply zrange_In in Hk. unfold skipj. replace (k <? j)%Z with true by lia. reflexivity. }
  assert (E2 : sumR (fun k => f (skipj j k)) (zrange j (n - 1)) = sumR f (zrange (j + 1) n)).
  { replace (zrange (j + 1) n) with (map (fun k => (k + 1)%Z) (zrange j (n - 1))).
    - rewrite sumR_map. apply sumR_ext. intros k Hk. apply zrange_In in Hk. unfold skipj. replace (k <? j)%Z with false by lia. reflexivity.
    - unfold zrange. rewrite map_map. replace (n - (j + 1))%Z with (n - 1 - j)%Z by lia. apply map_ext. intros. lia. }
  rewrite E1, E2. lra.
Qed.

(** A zero entry, or an entry that is not zero, among the first n. *)
Lemma find_nonzero (r : Z -> R) n : (exists j, (0 <= j < n)%Z /\ r j <> 0) \/ forall j, (0 <= j < n)%Z -> r j = 0.
Proof.
  destruct (Z.le_gt_cases 0 n) as [Hn|Hn]; [|right; lia]. revert n Hn. apply (zind_up _ 0%Z); [right; lia|].
  intros n Hn [(j & Hj & Hr)|Hz]; [left; exists j; split; [lia|auto]|].
  destruct (Req_dec (r n) 0) as [E|E]; [right|left; exists n; split; [lia|auto]].
  intros j Hj. destruct (Z.eq_dec j n) as [->|]; auto. apply Hz. lia.
Qed.

(** Fewer equations than unknowns: a solution that is not zero. *)
Lemma more_unknowns k : forall rows : list (Z -> R), length rows = k -> forall n, (Z.of_nat k < n)%Z ->
  exists x : Z -> R, (exists j, (0 <= j < n)%Z /\ x j <> 0) /\ forall r, In r rows -> zsum (fun k => r k * x k) 0 n = 0.
Proof.
  induction k as [|k IH]; intros rows Hl n Hn.
  - destruct rows; [|discriminate]. exists (fun _ => 1). split; [exists 0%Z; split; [lia|lra]|]. intros r [].
  - destruct rows as [|r rest]; [discriminate|]. cbn [length] in Hl. injection Hl as Hl.
    destruct (find_nonzero r n) as [(j & Hj & Hr)|Hz].
    + destruct (IH (map (fun r' l => r' (skipj j l) - r' j / r j * r (skipj j l)) rest) ltac:(now rewrite map_length) (n - 1)%Z ltac:(lia)) as (y & (j0 & Hj0 & Hy) & E).
      set (s := zsum (fun l => r (skipj j l) * y l) 0 (n - 1)).
      set (x := fun i : Z => if (i =? j)%Z then - s / r j else if (i <? j)%Z then y i else y (i - 1)%Z).
      assert (Xs : forall l, x (skipj j l) = y l).
      { intros l. unfold x, skipj. destruct (Z.ltb_spec l j); destruct (Z.eqb_spec (if true then l else l) j); try lia.
        - replace (l =? j)%Z with false by lia. replace (l <? j)%Z with true by lia. reflexivity.
        - replace (l + 1 =? j)%Z with false by lia. replace (l + 1 <? j)%Z with false by lia. f_equal. lia.
        - replace (l + 1 =? j)%Z with false by lia. replace (l + 1 <? j)%Z with false by lia. f_equal. lia. }
      assert (Xj : x j = - s / r j) by (unfold x; now rewrite Z.eqb_refl).
      exists x. split.
      * exists (skipj j j0). rewrite Xs. split; [unfold skipj; destruct (j0 <? j)%Z; lia|exact Hy].
      * intros r' Hr'. rewrite (zsum_skip _ n j Hj), Xj.
        rewrite (zsum_ext _ (fun l => r' (skipj j l) * y l)) by (intros; now rewrite Xs).
        destruct Hr' as [<-|Hr']; [fold s; field; auto|].
        specialize (E _ (in_map _ _ _ Hr')). cbv beta in E.
        rewrite (zsum_ext _ (fun l => r' (skipj j l) * y l - r' j / r j * (r (skipj j l) * y l))) in E by (intros; ring).
        unfold zsum in E, s |- *. rewrite sumR_minus, sumR_scal in E. apply Rminus_diag_uniq in E. unfold zsum. rewrite E. fold s; generalize s; intros; field. auto.
    + destruct (IH rest Hl n ltac:(lia)) as (x & Hx & E). exists x. split; auto. intros r' [<-|Hr']; auto.
      unfold zsum. apply sumR_zero. intros l Hl'. apply zrange_In in Hl'. rewrite Hz by auto. lra.
Qed.

(** A square system that determines its solution has a solution. *)
Lemma injective_solvable n A : (0 <= n)%Z -> (forall x, solves n A x (fun _ => 0) -> forall i, (0 <= i < n)%Z -> x i = 0) ->
  forall b, exists x, solves n A x b.
Proof.
  intros Hn Inj b.
  destruct (more_unknowns (Z.to_nat n) (map (fun i (l : Z) => if (l <? n)%Z then A i l else - b i) (zrange 0 n)) ltac:(rewrite map_length; unfold zrange; rewrite map_length, seq_length; lia) (n + 1)%Z ltac:(lia))
    as (x & (j & Hj & Hx) & E).
  assert (Eq : forall i, (0 <= i < n)%Z -> mvec n A x i = b i * x n).
  { intros i Hi. specialize (E _ (in_map _ _ i (proj2 (zrange_In _ _ _) Hi))). cbv beta in E. rewrite zsum_snoc' in E by lia.
    replace (n <? n)%Z with false in E by lia. unfold mvec. rewrite (zsum_ext _ (fun k => (if (k <? n)%Z then A i k else - b i) * x k)); [lra|].
    intros l Hl. replace (l <? n)%Z with true by lia. reflexivity. }
  destruct (Req_dec (x n) 0) as [Z0|Hne].
  - exfalso. apply Hx. destruct (Z.eq_dec j n) as [->|]; auto. apply Inj; [|lia]. intros i Hi. rewrite Eq, Z0 by auto. lra.
  - exists (fun i => x i / x n). intros i Hi. unfold mvec. rewrite (zsum_ext _ (fun l => / x n * (A i l * x l))) by (intros; unfold Rdiv; ring).
    unfold zsum. rewrite sumR_scal. fold (zsum (fun l => A i l * x l) 0 n). change (/ x n * mvec n A x i = b i). rewrite Eq by auto. field. auto.
Qed.
