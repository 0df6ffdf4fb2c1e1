(** Common vocabulary of the model: outcomes, integer ranges, checked reads. *)
From Coq Require Export ZArith List Bool Lia.
From Coq Require Import Permutation ZifyBool.
Export ListNotations.
Local Open Scope Z_scope.

(** Outcome of a modelled C++ function.
    [Ok a]   : the function returned 0 and produced [a];
    [Err c]  : the function returned the non-zero PETSc error code [c]
               (SETERRQ / CHKERRQ);
    [UB]     : the C++ code has undefined behaviour on this input
               (out-of-bounds access, modulo by zero, call through null). *)
Inductive res (A : Type) : Type :=
| Ok (a : A)
| Err (c : Z)
| UB.
Arguments Ok {A} a.
Arguments Err {A} c.
Arguments UB {A}.

Definition bind {A B : Type} (x : res A) (f : A -> res B) : res B :=
  match x with Ok a => f a | Err c => Err c | UB => UB end.

Notation "'do' x <- e ; f" := (bind e (fun x => f))
  (at level 200, x pattern, e at level 100, f at level 200, right associativity).

Definition is_ok {A} (x : res A) : Prop := exists a, x = Ok a.

(** PETSc error codes (petscerror.h). *)
Definition PETSC_ERR_SUP : Z := 56.
Definition PETSC_ERR_ARG_SIZ : Z := 60.
Definition PETSC_ERR_ARG_WRONG : Z := 62.
Definition PETSC_ERR_ARG_OUTOFRANGE : Z := 63.
Definition PETSC_ERR_FILE_OPEN : Z := 65.
Definition PETSC_ERR_FILE_READ : Z := 66.
Definition PETSC_ERR_ARG_INCOMP : Z := 75.
Definition PETSC_ERR_ARG_UNKNOWN_TYPE : Z := 86.
Definition PETSC_ERR_MAX_VALUE : Z := 91.
Definition PETSC_ERR_ARG_NULL : Z := 85.
Definition PETSC_ERR_CONV_FAILED : Z := 82.

(** [std::vector::operator[]] : index out of range is undefined behaviour. *)
Definition nthZ {A} (l : list A) (i : Z) : option A :=
  if i <? 0 then None else nth_error l (Z.to_nat i).

Definition rd {A} (l : list A) (i : Z) : res A :=
  match nthZ l i with Some x => Ok x | None => UB end.

Definition lenZ {A} (l : list A) : Z := Z.of_nat (length l).

(** Write of one element; out of range is undefined behaviour. *)
Fixpoint upd_nat {A} (l : list A) (i : nat) (x : A) : list A :=
  match l, i with
  | [], _ => []
  | _ :: t, O => x :: t
  | h :: t, S i' => h :: upd_nat t i' x
  end.

Definition wr {A} (l : list A) (i : Z) (x : A) : res (list A) :=
  if (0 <=? i) && (i <? lenZ l) then Ok (upd_nat l (Z.to_nat i) x) else UB.

(** The indices of [for (i = a; i < b; ++i)]. *)
Definition zrange (a b : Z) : list Z :=
  map (fun k => a + Z.of_nat k) (seq 0 (Z.to_nat (b - a))).

(** [for (...) { body }] where the body may fail: state-passing fold. *)
Fixpoint foldM {A S : Type} (f : S -> A -> res S) (l : list A) (s : S) : res S :=
  match l with
  | [] => Ok s
  | x :: t => do s' <- f s x; foldM f t s'
  end.

(** A loop that produces one result per element. *)
Fixpoint mapM {A B : Type} (f : A -> res B) (l : list A) : res (list B) :=
  match l with
  | [] => Ok []
  | x :: t => do y <- f x; do ys <- mapM f t; Ok (y :: ys)
  end.

(** * Lemmas about the vocabulary *)

Lemma mapM_ok {A B} (f : A -> res B) (g : A -> B) l :
  (forall x, In x l -> f x = Ok (g x)) -> mapM f l = Ok (map g l).
Proof.
  induction l as [|x t IH]; intros H; [reflexivity|]. cbn [mapM map].
  rewrite (H x) by (now left). cbn [bind]. rewrite IH by (intros; apply H; now right). reflexivity.
Qed.

Lemma foldM_ok {A S} (f : S -> A -> res S) (g : S -> A -> S) (P : S -> Prop) l :
  (forall s x, P s -> In x l -> f s x = Ok (g s x) /\ P (g s x)) ->
  forall s, P s -> foldM f l s = Ok (fold_left g l s) /\ P (fold_left g l s).
Proof.
  induction l as [|x t IH]; intros H s Hs; [split; [reflexivity|exact Hs]|]. cbn [foldM fold_left].
  destruct (H s x Hs (or_introl eq_refl)) as [E P']. rewrite E. cbn [bind].
  apply IH; auto. intros; apply H; auto. now right.
Qed.

Lemma foldM_ext {A S} (f g : S -> A -> res S) l :
  (forall s x, In x l -> f s x = g s x) -> forall s, foldM f l s = foldM g l s.
Proof.
  induction l as [|x t IH]; intros H s; [reflexivity|]. cbn [foldM]. rewrite H by (now left).
  destruct (g s x); cbn [bind]; auto. apply IH. intros; apply H; now right.
Qed.

Lemma bind_ok_inv {A B} (x : res A) (f : A -> res B) b :
  bind x f = Ok b -> exists a, x = Ok a /\ f a = Ok b.
Proof. destruct x; simpl; intros H; try discriminate; eauto. Qed.

Lemma nthZ_Some_range {A} (l : list A) i x : nthZ l i = Some x -> 0 <= i < lenZ l.
Proof.
  unfold nthZ, lenZ. destruct (Z.ltb_spec i 0) as [H|H]; [discriminate|].
  intros E. assert (Hn : (Z.to_nat i < length l)%nat).
  { apply nth_error_Some. rewrite E. discriminate. }
  lia.
Qed.

Lemma nthZ_in_range {A} (l : list A) i : 0 <= i < lenZ l -> exists x, nthZ l i = Some x.
Proof.
  unfold nthZ, lenZ. intros H. destruct (Z.ltb_spec i 0) as [H1|H1]; [lia|].
  destruct (nth_error l (Z.to_nat i)) eqn:E; [eauto|].
  apply nth_error_None in E. lia.
Qed.

Lemma nthZ_None {A} (l : list A) i : nthZ l i = None <-> i < 0 \/ lenZ l <= i.
Proof.
  unfold nthZ, lenZ. destruct (Z.ltb_spec i 0) as [H|H]; [split; intros; [lia|auto]|].
  rewrite nth_error_None. lia.
Qed.

Lemma nthZ_app_l {A} (l1 l2 : list A) i : i < lenZ l1 -> nthZ (l1 ++ l2) i = nthZ l1 i.
Proof.
  unfold nthZ, lenZ. intros H. destruct (Z.ltb_spec i 0); auto.
  apply nth_error_app1. lia.
Qed.

Lemma nthZ_app_r {A} (l1 l2 : list A) i : lenZ l1 <= i -> nthZ (l1 ++ l2) i = nthZ l2 (i - lenZ l1).
Proof.
  unfold nthZ, lenZ. intros H. destruct (Z.ltb_spec i 0); [lia|].
  destruct (Z.ltb_spec (i - Z.of_nat (length l1)) 0); [lia|].
  rewrite nth_error_app2 by lia. f_equal. lia.
Qed.

Lemma nthZ_cons_0 {A} (x : A) l : nthZ (x :: l) 0 = Some x.
Proof. reflexivity. Qed.

Lemma nthZ_cons_pos {A} (x : A) l i : 0 < i -> nthZ (x :: l) i = nthZ l (i - 1).
Proof.
  intros H. unfold nthZ. destruct (Z.ltb_spec i 0); [lia|].
  destruct (Z.ltb_spec (i - 1) 0); [lia|].
  replace (Z.to_nat i) with (S (Z.to_nat (i - 1))) by lia. reflexivity.
Qed.

Lemma nthZ_map {A B} (f : A -> B) l i : nthZ (map f l) i = option_map f (nthZ l i).
Proof. unfold nthZ. destruct (i <? 0); [reflexivity|]. apply nth_error_map. Qed.

Lemma nthZ_nat {A} (l : list A) (i : nat) : nthZ l (Z.of_nat i) = nth_error l i.
Proof. unfold nthZ. destruct (Z.ltb_spec (Z.of_nat i) 0); [lia|]. now rewrite Nat2Z.id. Qed.

Lemma nthZ_In {A} (l : list A) i x : nthZ l i = Some x -> In x l.
Proof. unfold nthZ. destruct (i <? 0); [discriminate|]. apply nth_error_In. Qed.

Lemma In_nthZ {A} (l : list A) x : In x l -> exists i, 0 <= i < lenZ l /\ nthZ l i = Some x.
Proof.
  intros H. apply In_nth_error in H. destruct H as [n Hn].
  exists (Z.of_nat n). rewrite nthZ_nat. split; [|exact Hn].
  unfold lenZ. assert ((n < length l)%nat) by (apply nth_error_Some; rewrite Hn; discriminate). lia.
Qed.

Lemma nthZ_NoDup_inj {A} (l : list A) i j x :
  NoDup l -> nthZ l i = Some x -> nthZ l j = Some x -> i = j.
Proof.
  intros Hnd Hi Hj.
  pose proof (nthZ_Some_range _ _ _ Hi). pose proof (nthZ_Some_range _ _ _ Hj).
  unfold nthZ in *. destruct (Z.ltb_spec i 0); [lia|]. destruct (Z.ltb_spec j 0); [lia|].
  assert (E : Z.to_nat i = Z.to_nat j).
  { apply (proj1 (NoDup_nth_error l) Hnd).
    - apply nth_error_Some. rewrite Hi. discriminate.
    - congruence. }
  lia.
Qed.

Lemma lenZ_app {A} (l1 l2 : list A) : lenZ (l1 ++ l2) = lenZ l1 + lenZ l2.
Proof. unfold lenZ. rewrite app_length. lia. Qed.

Lemma lenZ_map {A B} (f : A -> B) l : lenZ (map f l) = lenZ l.
Proof. unfold lenZ. now rewrite map_length. Qed.

Lemma lenZ_nonneg {A} (l : list A) : 0 <= lenZ l.
Proof. unfold lenZ. lia. Qed.

Lemma lenZ_cons {A} (x : A) l : lenZ (x :: l) = 1 + lenZ l.
Proof. unfold lenZ. simpl length. lia. Qed.

Lemma zrange_In a b x : In x (zrange a b) <-> a <= x < b.
Proof.
  unfold zrange. rewrite in_map_iff. split.
  - intros [k [E Hk]]. apply in_seq in Hk. lia.
  - intros H. exists (Z.to_nat (x - a)). split; [lia|]. apply in_seq. lia.
Qed.

Lemma zrange_length a b : length (zrange a b) = Z.to_nat (b - a).
Proof. unfold zrange. now rewrite map_length, seq_length. Qed.

Lemma zrange_lenZ a b : a <= b -> lenZ (zrange a b) = b - a.
Proof. intros. unfold lenZ. rewrite zrange_length. lia. Qed.

Lemma zrange_NoDup a b : NoDup (zrange a b).
Proof.
  unfold zrange. apply FinFun.Injective_map_NoDup; [|apply seq_NoDup].
  intros x y H. lia.
Qed.

Lemma zrange_nil a b : b <= a -> zrange a b = [].
Proof. intros. unfold zrange. replace (Z.to_nat (b - a)) with O by lia. reflexivity. Qed.

Lemma zrange_cons a b : a < b -> zrange a b = a :: zrange (a + 1) b.
Proof.
  intros. unfold zrange. replace (Z.to_nat (b - a)) with (S (Z.to_nat (b - (a + 1)))) by lia.
  simpl. f_equal; [lia|]. rewrite <- seq_shift, map_map. apply map_ext. intros. lia.
Qed.

Lemma zrange_app a b c : a <= b <= c -> zrange a c = zrange a b ++ zrange b c.
Proof.
  intros H. unfold zrange.
  replace (Z.to_nat (c - a)) with (Z.to_nat (b - a) + Z.to_nat (c - b))%nat by lia.
  rewrite seq_app, map_app. f_equal. rewrite Nat.add_0_l.
  replace (Z.to_nat (b - a)) with (Z.to_nat (b - a) + 0)%nat at 1 by lia.
  generalize (Z.to_nat (c - b)) as m. intros m.
  assert (G : forall m s, map (fun k => a + Z.of_nat k) (seq (Z.to_nat (b - a) + s) m)
                   = map (fun k => b + Z.of_nat k) (seq s m)).
  { induction m0 as [|m0 IH]; intros s; simpl; [reflexivity|]. f_equal; [lia|].
    rewrite <- (IH (S s)). f_equal. f_equal. lia. }
  apply G.
Qed.

Lemma zrange_snoc a b : a < b -> zrange a b = zrange a (b - 1) ++ [b - 1].
Proof.
  intros. rewrite (zrange_app a (b - 1) b) by lia. f_equal.
  rewrite zrange_cons by lia. rewrite zrange_nil by lia. reflexivity.
Qed.

Lemma nthZ_zrange a b i : 0 <= i < b - a -> nthZ (zrange a b) i = Some (a + i).
Proof.
  intros H. unfold nthZ, zrange. destruct (Z.ltb_spec i 0); [lia|].
  rewrite nth_error_map.
  rewrite (nth_error_nth' _ O) by (rewrite seq_length; lia).
  rewrite seq_nth by lia. simpl. f_equal. lia.
Qed.

Lemma map_zrange_shift {A} (f : Z -> A) a b k :
  map f (zrange (a + k) (b + k)) = map (fun i => f (i + k)) (zrange a b).
Proof.
  unfold zrange. rewrite !map_map. replace (b + k - (a + k)) with (b - a) by lia.
  apply map_ext. intros. f_equal. lia.
Qed.

Lemma rd_Ok {A} (l : list A) i x : rd l i = Ok x <-> nthZ l i = Some x.
Proof. unfold rd. destruct (nthZ l i); split; congruence. Qed.

Lemma upd_nat_length {A} (l : list A) i x : length (upd_nat l i x) = length l.
Proof. revert i. induction l; intros [|i]; simpl; auto. Qed.

Lemma nth_error_upd_nat_same {A} (l : list A) i x :
  (i < length l)%nat -> nth_error (upd_nat l i x) i = Some x.
Proof. revert i. induction l as [|h t IH]; intros [|i] H; simpl in *; try lia; auto. apply IH; lia. Qed.

Lemma nth_error_upd_nat_other {A} (l : list A) i j x :
  i <> j -> nth_error (upd_nat l i x) j = nth_error l j.
Proof.
  revert i j. induction l as [|h t IH]; intros [|i] [|j] H; simpl; try reflexivity; try lia.
  apply IH. lia.
Qed.

Lemma nthZ_ext {A} (l1 l2 : list A) :
  lenZ l1 = lenZ l2 -> (forall i, 0 <= i < lenZ l1 -> nthZ l1 i = nthZ l2 i) -> l1 = l2.
Proof.
  unfold lenZ. intros HL H.
  assert (HL' : length l1 = length l2) by lia. clear HL. revert l2 HL' H.
  induction l1 as [|x t IH]; intros [|y u] HL H; simpl in *; try discriminate; auto.
  f_equal.
  - specialize (H 0 ltac:(lia)). rewrite !nthZ_cons_0 in H. congruence.
  - apply IH; [lia|]. intros i Hi. specialize (H (i + 1) ltac:(lia)).
    rewrite !nthZ_cons_pos in H by lia. now replace (i + 1 - 1) with i in H by lia.
Qed.

Lemma foldM_app {A S} (f : S -> A -> res S) l1 l2 s :
  foldM f (l1 ++ l2) s = (do s' <- foldM f l1 s; foldM f l2 s').
Proof.
  revert s. induction l1 as [|x t IH]; intros s; simpl; [reflexivity|].
  destruct (f s x); simpl; auto.
Qed.

Lemma foldM_pure {A S} (f : S -> A -> S) l s :
  foldM (fun s x => Ok (f s x)) l s = Ok (fold_left f l s).
Proof. revert s. induction l; intros; simpl; auto. Qed.

Lemma flat_map_app_f {A B} (f : A -> list B) l1 l2 :
  flat_map f (l1 ++ l2) = flat_map f l1 ++ flat_map f l2.
Proof. induction l1; simpl; [reflexivity|]. now rewrite IHl1, app_assoc. Qed.

Lemma NoDup_app {A} (l1 l2 : list A) :
  NoDup l1 -> NoDup l2 -> (forall x, In x l1 -> ~ In x l2) -> NoDup (l1 ++ l2).
Proof.
  intros H1 H2 Hd. induction l1 as [|x t IH]; simpl; auto.
  inversion H1; subst. constructor.
  - rewrite in_app_iff. intros [H|H]; [auto|]. apply (Hd x); simpl; auto.
  - apply IH; auto. intros y Hy. apply Hd. simpl; auto.
Qed.

Lemma NoDup_flat_map {A B} (f : A -> list B) l :
  NoDup l -> (forall a, In a l -> NoDup (f a)) ->
  (forall a b x, In a l -> In b l -> In x (f a) -> In x (f b) -> a = b) ->
  NoDup (flat_map f l).
Proof.
  intros Hl Hf Hd. induction l as [|a t IH]; simpl; [constructor|].
  inversion Hl; subst. apply NoDup_app.
  - apply Hf. simpl; auto.
  - apply IH; auto.
    + intros; apply Hf; simpl; auto.
    + intros; eapply Hd; simpl; eauto.
  - intros x Hx Hx'. apply in_flat_map in Hx'. destruct Hx' as [b [Hb Hxb]].
    assert (a = b) by (eapply Hd; simpl; eauto). subst. contradiction.
Qed.
