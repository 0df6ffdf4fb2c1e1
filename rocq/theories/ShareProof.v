(** Proofs for C92. *)
From Coq Require Import String ZifyBool Lia.
From Verif Require Import Prelude ZSum TypesModel ShareModel ShareSpec.
Local Open Scope list_scope.

Section S.
Context {A : Type}.
Implicit Types (f : string) (c : option (list A)) (a : fact A).

Lemma one_silent f c a : ~ writes_to f a -> one_fact f c a = c.
Proof.
  intros H. destruct a as [g|g x|g]; cbn; try reflexivity; destruct (String.eqb_spec g f) as [->|]; try reflexivity; exfalso; apply H; [now left|right; eauto].
Qed.
Lemma all_silent f l : (forall a, In a l -> ~ writes_to f a) -> forall c, fold_left (one_fact f) l c = c.
Proof. induction l as [|a l IH]; intros H c; [reflexivity|]. cbn [fold_left]. rewrite one_silent by (apply H; now left). apply IH. intros b Hb. apply H. now right. Qed.
Lemma writes_dec f a : {writes_to f a} + {~ writes_to f a}.
Proof.
  destruct a as [g|g x|g].
  - destruct (string_dec g f) as [->|N]; [left; now left|right; intros [E|[y E]]; congruence].
  - destruct (string_dec g f) as [->|N]; [left; right; eauto|right; intros [E|[y E]]; congruence].
  - right; intros [E|[y E]]; congruence.
Qed.
Lemma disk_one a (d : string -> option (list A)) f : fact_disk a d f = one_fact f (d f) a.
Proof.
  destruct a as [g|g x|g]; cbn; try reflexivity; rewrite String.eqb_sym; destruct (String.eqb_spec g f) as [->|]; reflexivity.
Qed.

Lemma fold_silent f (acts : Z -> list (fact A)) l : (forall q a, In q l -> In a (acts q) -> ~ writes_to f a) ->
  forall c, fold_left (fun c r => fold_left (one_fact f) (acts r) c) l c = c.
Proof.
  induction l as [|q l IH]; intros H c; [reflexivity|]. cbn [fold_left]. rewrite all_silent by (intros a Ha; apply (H q a); [now left|exact Ha]).
  apply IH. intros q' a' Hq Ha'. apply (H q' a'); [now right|exact Ha'].
Qed.
Lemma turn_silent f n acts c : untouched f n acts -> turn f n acts c = c.
Proof. intros H. unfold turn. apply fold_silent. intros q a Hq Ha. apply (H q a); [now apply zrange_In|exact Ha]. Qed.
Lemma turn_single f n acts p c : (0 <= p < n)%Z -> (forall q a, (0 <= q < n)%Z -> q <> p -> In a (acts q) -> ~ writes_to f a) ->
  turn f n acts c = fold_left (one_fact f) (acts p) c.
Proof.
  intros Hp H. unfold turn. rewrite (zrange_app 0 p n) by lia. rewrite (zrange_cons p n) by lia. rewrite fold_left_app. cbn [fold_left].
  rewrite (fold_silent f acts (zrange 0 p)) by (intros q a Hq; apply zrange_In in Hq; apply H; lia).
  rewrite (fold_silent f acts (zrange (p + 1) n)) by (intros q a Hq; apply zrange_In in Hq; apply H; lia). reflexivity.
Qed.
Lemma run_trunc f l : (forall a, In a l -> writes_to f a -> a = Trunc f) -> forall c, (c = Some [] \/ In (Trunc f) l) -> fold_left (one_fact f) l c = Some [].
Proof.
  induction l as [|a l IH]; intros H c Hc; [destruct Hc as [->|[]]; reflexivity|]. cbn [fold_left]. apply IH; [intros b Hb; apply H; now right|].
  destruct (writes_dec f a) as [W|W].
  - rewrite (H a (or_introl eq_refl) W). left. cbn. now rewrite String.eqb_refl.
  - rewrite one_silent by exact W. destruct Hc as [->|[->|Hc]]; [now left| |now right]. exfalso. apply W. now left.
Qed.
Lemma turn_trunc f n acts c r : (forall q a, (0 <= q < n)%Z -> In a (acts q) -> writes_to f a -> a = Trunc f) -> (0 <= r < n)%Z -> In (Trunc f) (acts r) ->
  turn f n acts c = Some [].
Proof.
  intros H Hr I. unfold turn.
  assert (G : forall l, (forall q, In q l -> (0 <= q < n)%Z) -> forall c, (c = Some [] \/ In r l) -> fold_left (fun c r => fold_left (one_fact f) (acts r) c) l c = Some []).
  { induction l as [|q l IH]; intros Hl c' Hc; [destruct Hc as [->|[]]; reflexivity|]. cbn [fold_left]. apply IH; [intros q' Hq'; apply Hl; now right|].
    assert (Hq : (0 <= q < n)%Z) by (apply Hl; now left).
    destruct Hc as [->|[->|Hc]]; [left; apply run_trunc; [intros a Ha; now apply (H q a)|now left]|left; apply run_trunc; [intros a Ha; now apply (H r a)|now right]|now right]. }
  apply G; [intros q Hq; now apply zrange_In|right; now apply zrange_In].
Qed.

(** One more action of process [r]. *)
Lemma turn_snoc f n acts r a l c (whole : Z -> list (fact A)) : calm f n whole -> (0 <= r < n)%Z ->
  (forall q, (0 <= q < n)%Z -> exists l, whole q = acts q ++ l) -> whole r = acts r ++ a :: l ->
  turn f n (zupd acts r (acts r ++ [a])) c = one_fact f (turn f n acts c) a.
Proof.
  intros C Hr Pre E.
  assert (In1 : forall q b, (0 <= q < n)%Z -> In b (zupd acts r (acts r ++ [a]) q) -> In b (whole q)).
  { intros q b Hq. unfold zupd. destruct (Z.eqb_spec q r) as [->|N].
    - rewrite E. rewrite !in_app_iff. cbn. intuition.
    - destruct (Pre q Hq) as [l' ->]. rewrite in_app_iff. now left. }
  assert (In0 : forall q b, (0 <= q < n)%Z -> In b (acts q) -> In b (whole q)).
  { intros q b Hq. destruct (Pre q Hq) as [l' ->]. rewrite in_app_iff. now left. }
  assert (Ia : In a (whole r)) by (rewrite E, in_app_iff; right; now left).
  destruct (writes_dec f a) as [W|W].
  - destruct C as [[p C]|C].
    + assert (r = p) as -> by (destruct (Z.eq_dec r p) as [|N]; [assumption|exfalso; exact (C r a Hr N Ia W)]).
      rewrite (turn_single f n _ p) by (assumption || (intros q b Hq N Hb; apply (C q b Hq N); now apply In1)).
      rewrite (turn_single f n acts p) by (assumption || (intros q b Hq N Hb; apply (C q b Hq N); now apply In0)).
      unfold zupd. rewrite Z.eqb_refl, fold_left_app. reflexivity.
    + assert (a = Trunc f) as -> by (apply (C r a Hr Ia W)). rewrite (turn_trunc f n _ c r); [cbn; now rewrite String.eqb_refl| |assumption|].
      * intros q b Hq Hb. apply (C q b Hq). now apply In1.
      * unfold zupd. rewrite Z.eqb_refl, in_app_iff. right. now left.
  - rewrite one_silent by exact W. unfold turn. generalize c. generalize (zrange 0 n). induction l0 as [|q l0 IH]; intros c0; [reflexivity|]. cbn [fold_left].
    rewrite IH. f_equal. unfold zupd. destruct (Z.eqb_spec q r) as [->|]; [|reflexivity]. rewrite fold_left_app. cbn [fold_left]. now apply one_silent.
Qed.

Lemma turn_ext f n acts acts' c : (forall q, (0 <= q < n)%Z -> acts q = acts' q) -> turn f n acts c = turn f n acts' c.
Proof.
  intros H. unfold turn. assert (G : forall l, (forall q, In q l -> (0 <= q < n)%Z) -> forall c, fold_left (fun c r => fold_left (one_fact f) (acts r) c) l c = fold_left (fun c r => fold_left (one_fact f) (acts' r) c) l c).
  { induction l as [|q l IH]; intros Hl c'; [reflexivity|]. cbn [fold_left]. rewrite (H q) by (apply Hl; now left). apply IH. intros q' Hq'. apply Hl. now right. }
  apply G. intros q Hq. now apply zrange_In.
Qed.

Section Run.
Variables (n : Z) (P : fprog A) (d : string -> option (list A)).

(** What process [q] has done since barrier [k]. *)
Definition since (k : nat) (w : fworld A) (q : Z) : list (fact A) := if Nat.eqb (f_phase w q) k then f_did w q else [].
Definition inv (w : fworld A) (k : nat) : Prop :=
  (forall q, (0 <= q < n)%Z -> (f_phase w q = k /\ exists l, fphase P k q = f_did w q ++ l) \/ (S (f_phase w q) = k /\ f_did w q = fphase P (f_phase w q) q)) /\
  (forall f, (forall j, calm f n (fphase P j)) -> f_disk w f = turn f n (since k w) (in_turn f n P k (d f))) /\
  (forall q j f x, (0 <= q < n)%Z -> In (j, f, x) (f_seen w q) -> (forall i, calm f n (fphase P i)) -> untouched f n (fphase P j) -> x = in_turn f n P j (d f)).

Lemma app_same (l : list (fact A)) a t : l <> l ++ a :: t.
Proof. intros E. apply (f_equal (@List.length _)) in E. rewrite app_length in E. cbn in E. lia. Qed.

Lemma inv_moves w : fmoves n P (fstart d) w -> exists k, inv w k.
Proof.
  induction 1 as [|w' w'' M [k (I1 & I2 & I3)] S].
  - exists O. split; [|split].
    + intros q Hq. left. split; [reflexivity|]. cbn. eauto.
    + intros f _. cbn [in_turn]. rewrite turn_silent; [reflexivity|]. intros q a Hq Ha. unfold since, fstart in Ha. cbn in Ha. destruct Ha.
    + intros q j f x Hq []. 
  - destruct S as [r a l Hr E|r Hr Hlen E All].
    + exists k. destruct (I1 r Hr) as [[Pk [l' El]]|[Pk Ed]]; [|exfalso; rewrite <- Ed in E; exact (app_same _ _ _ E)].
      split; [|split].
      * intros q Hq. cbn [f_phase f_did]. unfold zupd. destruct (Z.eqb_spec q r) as [->|]; [|now apply I1]. left. split; [exact Pk|].
        exists l. rewrite Pk in E. rewrite E, <- app_assoc. reflexivity.
      * intros f Cf. cbn [f_disk]. rewrite disk_one, (I2 f Cf).
        rewrite <- (turn_snoc f n (since k w') r a l _ (fphase P k)); [apply turn_ext; intros q Hq|apply Cf|exact Hr| |].
        -- unfold zupd, since. cbn [f_phase f_did]. destruct (Z.eqb_spec q r) as [->|]; [|reflexivity]. rewrite Pk, Nat.eqb_refl. reflexivity.
        -- intros q Hq. unfold since. destruct (Nat.eqb_spec (f_phase w' q) k) as [Q|Q]; [|now exists (fphase P k q)]. destruct (I1 q Hq) as [[_ X]|[X _]]; [exact X|lia].
        -- unfold since. rewrite Pk, Nat.eqb_refl. rewrite Pk in E. exact E.
      * intros q j f x Hq. cbn [f_seen]. destruct a as [g|g y|g]; try (now apply I3). unfold zupd. destruct (Z.eqb_spec q r) as [->|]; [|now apply I3].
        rewrite in_app_iff. intros [I|[I|[]]] Cf U; [now apply (I3 r j f x Hr I Cf U)|]. injection I as <- <- <-. rewrite (I2 g Cf), Pk. apply turn_silent.
        intros q b Hq' Hb. apply (U q b Hq'). rewrite Pk. unfold since in Hb. destruct (Nat.eqb_spec (f_phase w' q) k) as [Q|Q]; [|destruct Hb].
        destruct (I1 q Hq') as [[_ [l2 X]]|[X _]]; [rewrite X, in_app_iff; now left|lia].
    + destruct (I1 r Hr) as [[Pk _]|[Pk Ed]].
      * exists (S k).
        assert (Al : forall q, (0 <= q < n)%Z -> f_phase w' q = k /\ f_did w' q = fphase P k q).
        { intros q Hq. destruct (All q Hq) as [X|[X Y]]; [destruct (I1 q Hq) as [[Z _]|[Z _]]; lia|]. rewrite X in Y. rewrite Pk in X, Y. now rewrite Pk in Y || auto. }
        split; [|split; [|exact I3]].
        -- intros q Hq. cbn [f_phase f_did]. unfold zupd. destruct (Z.eqb_spec q r) as [->|]; [left; rewrite Pk; split; [reflexivity|cbn; eauto]|].
           right. destruct (Al q Hq) as [-> ->]. auto.
        -- intros f Cf. cbn [f_disk]. rewrite (I2 f Cf). cbn [in_turn]. rewrite (turn_silent f n (since (S k) _)).
           ++ apply turn_ext. intros q Hq. unfold since. destruct (Al q Hq) as [-> ->]. now rewrite Nat.eqb_refl.
           ++ intros q b Hq Hb. unfold since in Hb. cbn [f_phase f_did] in Hb. unfold zupd in Hb. destruct (Z.eqb_spec q r) as [->|N]; [destruct (Nat.eqb _ _); destruct Hb|].
              destruct (Al q Hq) as [X _]. rewrite X in Hb. destruct (Nat.eqb_spec k (S k)); [lia|destruct Hb].
      * exists k. split; [|split; [|exact I3]].
        -- intros q Hq. cbn [f_phase f_did]. unfold zupd. destruct (Z.eqb_spec q r) as [->|]; [|now apply I1]. left. split; [exact Pk|cbn; eauto].
        -- intros f Cf. cbn [f_disk]. rewrite (I2 f Cf). apply turn_ext. intros q Hq. unfold since. cbn [f_phase f_did]. unfold zupd.
           destruct (Z.eqb_spec q r) as [->|]; [|reflexivity]. destruct (Nat.eqb_spec (f_phase w' r) k) as [X|X]; [lia|]. rewrite Pk, Nat.eqb_refl. reflexivity.
Qed.

Lemma seen_moves w q j f x : fmoves n P (fstart d) w -> (0 <= q < n)%Z -> In (j, f, x) (f_seen w q) -> (forall i, calm f n (fphase P i)) -> untouched f n (fphase P j) ->
  x = in_turn f n P j (d f).
Proof. intros M. destruct (inv_moves w M) as [k (_ & _ & I3)]. apply I3. Qed.

Lemma done_moves w f K : (0 < n)%Z -> (forall r, (0 <= r < n)%Z -> List.length (P r) = K) -> (forall j, calm f n (fphase P j)) ->
  fmoves n P (fstart d) w -> fdone n P w -> f_disk w f = in_turn f n P K (d f).
Proof.
  intros Hn HK Cf M F. destruct (inv_moves w M) as [k (I1 & I2 & _)].
  assert (Ph : forall q, (0 <= q < n)%Z -> S (f_phase w q) = K /\ f_did w q = fphase P (f_phase w q) q) by (intros q Hq; destruct (F q Hq) as [X Y]; rewrite HK in X; auto).
  rewrite (I2 f Cf). destruct (I1 0%Z) as [[X _]|[X _]]; [lia| |]; destruct (Ph 0%Z ltac:(lia)) as [Y _].
  - subst K. rewrite X. cbn [in_turn]. apply turn_ext. intros q Hq. unfold since. destruct (Ph q Hq) as [Z1 Z2]. assert (f_phase w q = k) as -> by lia.
    rewrite Nat.eqb_refl. rewrite Z2. f_equal. lia.
  - assert (k = K) as -> by lia. apply turn_silent. intros q a Hq Ha. unfold since in Ha. destruct (Ph q Hq) as [Z1 _]. destruct (Nat.eqb_spec (f_phase w q) K); [lia|destruct Ha].
Qed.

Lemma phase_bound K w : (0 < K)%nat -> (forall r, (0 <= r < n)%Z -> List.length (P r) = K) -> fmoves n P (fstart d) w -> forall q, (f_phase w q < K)%nat.
Proof.
  intros HK0 HK. induction 1 as [|w' w'' M IH S]; intros q; [exact HK0|]. destruct S as [r a l Hr E|r Hr Hlen E All]; [apply IH|].
  cbn [f_phase]. unfold zupd. destruct (Z.eqb q r); [rewrite <- (HK r Hr); exact Hlen|apply IH].
Qed.
Lemma search (Q R : Z -> Prop) : (forall q, (0 <= q < n)%Z -> Q q \/ R q) -> (exists q, (0 <= q < n)%Z /\ Q q) \/ forall q, (0 <= q < n)%Z -> R q.
Proof.
  intros H. assert (G : forall j : nat, (Z.of_nat j <= n)%Z -> (exists q, (0 <= q < n)%Z /\ Q q) \/ forall q, (0 <= q < Z.of_nat j)%Z -> R q).
  { induction j as [|j IH]; intros Hj; [right; lia|]. destruct IH as [X|X]; [lia|now left|]. destruct (H (Z.of_nat j)) as [Y|Y]; [lia|left; exists (Z.of_nat j); split; [lia|exact Y]|].
    right. intros q Hq. destruct (Z.eq_dec q (Z.of_nat j)) as [->|]; [exact Y|apply X; lia]. }
  destruct (Z_le_dec 0 n) as [L|L]; [|right; lia]. destruct (G (Z.to_nat n)) as [X|X]; [lia|now left|right; intros q Hq; apply X; lia].
Qed.
(** Some process can always go on. *)
Lemma some_move w K : (0 < K)%nat -> (forall r, (0 <= r < n)%Z -> List.length (P r) = K) -> fmoves n P (fstart d) w -> fdone n P w \/ exists w', fmove n P w w'.
Proof.
  intros HK0 HK M. pose proof (phase_bound K w HK0 HK M) as PB. destruct (inv_moves w M) as [k (I1 & _ & _)].
  destruct (search (fun q => exists a l, fphase P (f_phase w q) q = f_did w q ++ a :: l) (fun q => f_did w q = fphase P (f_phase w q) q)) as [(q & Hq & a & l & E)|D].
  { intros q Hq. assert (Q : exists l, fphase P (f_phase w q) q = f_did w q ++ l) by (destruct (I1 q Hq) as [[-> H]|[_ H]]; [exact H|exists []; rewrite app_nil_r; now symmetry]).
    destruct Q as [[|a l] Q]; [right; rewrite Q, app_nil_r; reflexivity|left; eauto]. }
  { right. eexists. eapply fmove_act; eassumption. }
  destruct (search (fun q => S (f_phase w q) = k) (fun q => f_phase w q = k)) as [(q & Hq & E)|E].
  { intros q Hq. destruct (I1 q Hq) as [[H _]|[H _]]; auto. }
  - destruct (Nat.eq_dec k K) as [->|N].
    + left. intros r Hr. rewrite HK by exact Hr. split; [|now apply D]. specialize (PB r). destruct (I1 r Hr) as [[H _]|[H _]]; lia.
    + right. eexists. apply fmove_barrier with (r := q); [exact Hq| |now apply D|].
      * rewrite HK by exact Hq. specialize (PB q). lia.
      * intros r Hr. destruct (I1 r Hr) as [[H _]|[H _]]; [left; lia|right; split; [lia|now apply D]].
  - destruct (Nat.eq_dec (S k) K) as [<-|N].
    + left. intros r Hr. rewrite HK by exact Hr. rewrite E by exact Hr. split; [reflexivity|]. rewrite <- (E r Hr). now apply D.
    + destruct (Z_lt_dec 0 n) as [L|L]; [|left; intros r Hr; lia]. right. eexists. apply fmove_barrier with (r := 0%Z); [lia| |apply D; lia|].
      * rewrite HK by lia. specialize (PB 0%Z). rewrite E in * by lia. lia.
      * intros r Hr. right. rewrite !E by lia. split; [reflexivity|]. rewrite <- (E r Hr). now apply D.
Qed.
End Run.
End S.
