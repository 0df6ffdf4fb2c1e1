From Coq Require Import Sorted ZifyBool.
From Verif Require Import Prelude ZSum TypesModel IndexModel IndexSpec LoopModel IndexProof.
Local Open Scope Z_scope.

Lemma run_seq_app {I S} (b : I -> S -> S * Z) l1 l2 s :
  run_seq b (l1 ++ l2) s = let '(s', e) := run_seq b l1 s in if e =? 0 then run_seq b l2 s' else (s', e).
Proof.
  revert s. induction l1 as [|x t IH]; intros s; simpl; [now destruct (run_seq b l2 s)|].
  destruct (b x s) as [s' e]. destruct (e =? 0) eqn:E; [apply IH|]. now rewrite E.
Qed.

Lemma run_seq_map {I J S} (g : J -> I) (b : I -> S -> S * Z) l s :
  run_seq b (map g l) s = run_seq (fun x => b (g x)) l s.
Proof. revert s. induction l as [|x t IH]; intros; simpl; auto. destruct (b (g x) s). destruct (z =? 0); auto. Qed.

Lemma loopE_run {S} (f : Z -> S -> S * Z) l s : loopE l f s = run_seq f l s.
Proof. revert s. induction l; intros; simpl; auto. destruct (f a s). destruct (z =? 0); auto. Qed.

Lemma run_seq_ext {I S} (b b' : I -> S -> S * Z) l s : (forall x s, b x s = b' x s) -> run_seq b l s = run_seq b' l s.
Proof. intros H. revert s. induction l; intros; simpl; auto. rewrite H. destruct (b' a s). destruct (z =? 0); auto. Qed.

Lemma run_flat_map {I J S} (g : J -> list I) (b : I -> S -> S * Z) l s :
  run_seq b (flat_map g l) s = run_seq (fun x => run_seq b (g x)) l s.
Proof.
  revert s. induction l as [|x t IH]; intros s; simpl; [reflexivity|]. rewrite run_seq_app.
  destruct (run_seq b (g x) s) as [s' e]. destruct (e =? 0); auto.
Qed.

Definition pairs2 a b c d := flat_map (fun i => map (fun j => (i, j)) (zrange c d)) (zrange a b).
Definition triples3 a b c d e f := flat_map (fun i => map (fun p => (i, fst p, snd p)) (pairs2 c d e f)) (zrange a b).

Lemma pairs2_In a b c d i j : In (i, j) (pairs2 a b c d) <-> a <= i < b /\ c <= j < d.
Proof.
  unfold pairs2. rewrite in_flat_map. split.
  - intros (x & Hx & H). apply in_map_iff in H. destruct H as (y & E & Hy). injection E as -> ->.
    apply zrange_In in Hx, Hy. auto.
  - intros [Hi Hj]. exists i. split; [now apply zrange_In|]. apply in_map_iff. exists j. split; auto. now apply zrange_In.
Qed.

Lemma SS_app {A} (R : A -> A -> Prop) l1 l2 : StronglySorted R l1 -> StronglySorted R l2 ->
  (forall x y, In x l1 -> In y l2 -> R x y) -> StronglySorted R (l1 ++ l2).
Proof.
  intros H1 H2 H. induction l1 as [|x t IH]; simpl; auto. inversion H1; subst. constructor.
  - apply IH; auto. intros. apply H; simpl; auto.
  - apply Forall_app. split; auto. apply Forall_forall. intros y Hy. apply H; simpl; auto.
Qed.

Lemma SS_zrange a b : StronglySorted Z.lt (zrange a b).
Proof.
  destruct (Z_lt_dec a b) as [H|H]; [|rewrite zrange_nil by lia; constructor].
  assert (Hab : a <= b) by lia. clear H. pattern b. apply (zind_up _ a); auto.
  - rewrite zrange_nil by lia. constructor.
  - intros c Hc IH. rewrite (zrange_app a c (c + 1)) by lia. apply SS_app; auto.
    + rewrite zrange_cons, zrange_nil by lia. constructor; constructor.
    + intros x y Hx Hy. apply zrange_In in Hx, Hy. lia.
Qed.

Lemma SS_map {A B} (R : A -> A -> Prop) (Q : B -> B -> Prop) (g : A -> B) l :
  (forall x y, R x y -> Q (g x) (g y)) -> StronglySorted R l -> StronglySorted Q (map g l).
Proof.
  intros H. induction 1; simpl; constructor; auto. apply Forall_map. eapply Forall_impl; [|eauto]. auto.
Qed.

Lemma SS_flat_map {A B} (R : A -> A -> Prop) (Q : B -> B -> Prop) (g : A -> list B) l :
  StronglySorted R l -> (forall x, StronglySorted Q (g x)) ->
  (forall x y u v, R x y -> In u (g x) -> In v (g y) -> Q u v) -> StronglySorted Q (flat_map g l).
Proof.
  intros H Hg Hx. induction H as [|a t Ht IH Hf]; simpl; [constructor|].
  apply SS_app; auto. intros u v Hu Hv. apply in_flat_map in Hv. destruct Hv as (y & Hy & Hv).
  rewrite Forall_forall in Hf. eapply Hx; eauto.
Qed.

Lemma SS_NoDup {A} (R : A -> A -> Prop) l : (forall x, ~ R x x) -> StronglySorted R l -> NoDup l.
Proof.
  intros Hi. induction 1 as [|a t Ht IH Hf]; constructor; auto. intros Hin.
  rewrite Forall_forall in Hf. apply (Hi a). auto.
Qed.

Lemma pairs2_SS a b c d : StronglySorted lex2 (pairs2 a b c d).
Proof.
  unfold pairs2. apply (SS_flat_map Z.lt); [apply SS_zrange| |].
  - intros i. apply (SS_map Z.lt); [|apply SS_zrange]. intros x y H. unfold lex2; simpl; lia.
  - intros x y u v H Hu Hv. apply in_map_iff in Hu, Hv. destruct Hu as (? & <- & _), Hv as (? & <- & _).
    unfold lex2; simpl; lia.
Qed.

Lemma double_loop_spec : forall (S : Type) bg1 ed1 bg2 ed2,
  exists l : list (Z * Z),
    NoDup l /\ StronglySorted lex2 l /\
    (forall i j, In (i, j) l <-> bg1 <= i < ed1 /\ bg2 <= j < ed2) /\
    forall (f : Z -> Z -> S -> S * Z) (s : S),
      doubleLoops bg1 ed1 bg2 ed2 f s = run_seq (fun p => f (fst p) (snd p)) l s.
Proof.
  intros S bg1 ed1 bg2 ed2. exists (pairs2 bg1 ed1 bg2 ed2). split; [|split; [|split]].
  - eapply SS_NoDup; [|apply pairs2_SS]. unfold lex2; intros x; lia.
  - apply pairs2_SS.
  - intros. apply pairs2_In.
  - intros f s. unfold doubleLoops, pairs2. rewrite loopE_run, run_flat_map. apply run_seq_ext.
    intros i s'. rewrite loopE_run, run_seq_map. reflexivity.
Qed.

Lemma triple_loop_spec : forall (S : Type) bg1 ed1 bg2 ed2 bg3 ed3,
  exists l : list (Z * Z * Z),
    NoDup l /\ StronglySorted lex3 l /\
    (forall i j k, In (i, j, k) l <-> bg1 <= i < ed1 /\ bg2 <= j < ed2 /\ bg3 <= k < ed3) /\
    forall (f : Z -> Z -> Z -> S -> S * Z) (s : S),
      tripleLoops bg1 ed1 bg2 ed2 bg3 ed3 f s = run_seq (fun p => f (fst (fst p)) (snd (fst p)) (snd p)) l s.
Proof.
  intros S a b c d e g. exists (triples3 a b c d e g).
  assert (SS : StronglySorted lex3 (triples3 a b c d e g)).
  { unfold triples3. apply (SS_flat_map Z.lt); [apply SS_zrange| |].
    - intros i. apply (SS_map lex2); [|apply pairs2_SS]. intros x y H.
      unfold lex3, lex2 in *; simpl. destruct H as [H|[H H']]; [lia|]. right. split; [congruence|lia].
    - intros x y u v H Hu Hv. apply in_map_iff in Hu, Hv. destruct Hu as (? & <- & _), Hv as (? & <- & _).
      unfold lex3, lex2; simpl; lia. }
  split; [|split; [exact SS|split]].
  - eapply SS_NoDup; [|exact SS]. unfold lex3, lex2; intros x; lia.
  - intros i j k. unfold triples3. rewrite in_flat_map. split.
    + intros (x & Hx & H). apply in_map_iff in H. destruct H as ([y z] & E & Hy). simpl in E. injection E as -> -> ->.
      apply zrange_In in Hx. apply pairs2_In in Hy. tauto.
    + intros (Hi & Hj & Hk). exists i. split; [now apply zrange_In|]. apply in_map_iff. exists (j, k).
      split; [reflexivity|]. now apply pairs2_In.
  - intros f s. unfold tripleLoops, triples3. rewrite loopE_run, run_flat_map. apply run_seq_ext.
    intros i s'. unfold doubleLoops. rewrite loopE_run, run_seq_map. unfold pairs2. rewrite run_flat_map.
    apply run_seq_ext. intros j s2. rewrite loopE_run, run_seq_map. reflexivity.
Qed.
