(** Finite integer sums, positions in concatenated lists. *)
From Coq Require Import Permutation ZifyBool.
From Verif Require Import Prelude.
Local Open Scope Z_scope.

Definition isum (f : Z -> Z) (a b : Z) : Z := fold_right Z.add 0 (map f (zrange a b)).

Lemma fold_add_app l1 l2 : fold_right Z.add 0 (l1 ++ l2) = fold_right Z.add 0 l1 + fold_right Z.add 0 l2.
Proof. induction l1; simpl; lia. Qed.

Lemma isum_nil f a b : b <= a -> isum f a b = 0.
Proof. intros. unfold isum. now rewrite zrange_nil. Qed.

Lemma isum_snoc f a b : a <= b -> isum f a (b + 1) = isum f a b + f b.
Proof.
  intros. unfold isum. rewrite (zrange_app a b (b + 1)) by lia.
  rewrite map_app, fold_add_app. rewrite (zrange_cons b) by lia. rewrite (zrange_nil (b + 1)) by lia.
  simpl. lia.
Qed.

Lemma isum_2 f : isum f 0 2 = f 0 + f 1.
Proof. change (f 0 + (f 1 + 0) = f 0 + f 1). lia. Qed.
Lemma isum_3 f : isum f 0 3 = f 0 + f 1 + f 2.
Proof. change (f 0 + (f 1 + (f 2 + 0)) = f 0 + f 1 + f 2). lia. Qed.

Lemma isum_app f a b c : a <= b <= c -> isum f a c = isum f a b + isum f b c.
Proof. intros. unfold isum. now rewrite (zrange_app a b c), map_app, fold_add_app. Qed.

Lemma isum_ext f g a b : (forall i, a <= i < b -> f i = g i) -> isum f a b = isum g a b.
Proof.
  intros H. unfold isum. f_equal. apply map_ext_in. intros x Hx. apply H. now apply zrange_In.
Qed.

Lemma isum_nonneg f a b : (forall i, a <= i < b -> 0 <= f i) -> 0 <= isum f a b.
Proof.
  intros H. unfold isum.
  assert (G : forall l, (forall x, In x l -> 0 <= f x) -> 0 <= fold_right Z.add 0 (map f l)).
  { induction l as [|x t IH]; simpl; intros Hl; [lia|].
    pose proof (Hl x (or_introl eq_refl)). assert (0 <= fold_right Z.add 0 (map f t)) by auto. lia. }
  apply G. intros x Hx. apply H. now apply zrange_In.
Qed.

Lemma zind_up (P : Z -> Prop) a :
  P a -> (forall b, a <= b -> P b -> P (b + 1)) -> forall b, a <= b -> P b.
Proof.
  intros H0 HS b Hb. replace b with (a + Z.of_nat (Z.to_nat (b - a))) by lia.
  induction (Z.to_nat (b - a)) as [|n IH].
  - now replace (a + Z.of_nat 0) with a by lia.
  - replace (a + Z.of_nat (S n)) with (a + Z.of_nat n + 1) by lia. apply HS; [lia|exact IH].
Qed.

Lemma isum_le f a b c : (forall i, a <= i < c -> 0 <= f i) -> a <= b <= c -> isum f a b <= isum f a c.
Proof.
  intros H Hb. rewrite (isum_app f a b c) by lia.
  assert (0 <= isum f b c) by (apply isum_nonneg; intros; apply H; lia). lia.
Qed.

Lemma isum_const c a b : a <= b -> isum (fun _ => c) a b = (b - a) * c.
Proof.
  intros H. pattern b. apply (zind_up _ a); auto.
  - rewrite isum_nil by lia. lia.
  - intros b' Hb IH. rewrite isum_snoc, IH by lia. lia.
Qed.

(** Which block of a partition a value falls in. *)
Lemma isum_locate f n v : 0 <= n -> (forall i, 0 <= i < n -> 0 <= f i) -> 0 <= v < isum f 0 n ->
  exists q, 0 <= q < n /\ isum f 0 q <= v < isum f 0 (q + 1).
Proof.
  intros Hn. revert v. pattern n. apply (zind_up _ 0); auto.
  - intros v _ H. rewrite isum_nil in H by lia. lia.
  - intros b Hb IH v Hf H. rewrite isum_snoc in H by lia.
    destruct (Z_lt_dec v (isum f 0 b)) as [H1|H1].
    + destruct (IH v) as (q & Hq & E); [intros; apply Hf; lia|lia|]. exists q. split; [lia|auto].
    + exists b. split; [lia|]. rewrite isum_snoc by lia. lia.
Qed.

Lemma isum_locate_unique f n v q q' :
  (forall i, 0 <= i < n -> 0 <= f i) -> 0 <= q < n -> 0 <= q' < n ->
  isum f 0 q <= v < isum f 0 (q + 1) -> isum f 0 q' <= v < isum f 0 (q' + 1) -> q = q'.
Proof.
  intros Hf Hq Hq' H H'.
  destruct (Z_lt_dec q q').
  - assert (isum f 0 (q + 1) <= isum f 0 q') by (apply isum_le; [intros; apply Hf; lia|lia]). lia.
  - destruct (Z_lt_dec q' q); [|lia].
    assert (isum f 0 (q' + 1) <= isum f 0 q) by (apply isum_le; [intros; apply Hf; lia|lia]). lia.
Qed.

(** * Concatenation of blocks *)
Lemma flat_map_lenZ {A} (g : Z -> list A) a b :
  lenZ (flat_map g (zrange a b)) = isum (fun q => lenZ (g q)) a b.
Proof.
  unfold isum. induction (zrange a b) as [|x t IH]; simpl; [reflexivity|]. rewrite lenZ_app. lia.
Qed.

Lemma flat_map_nth {A} (g : Z -> list A) n r i x :
  0 <= r < n -> nthZ (g r) i = Some x ->
  nthZ (flat_map g (zrange 0 n)) (isum (fun q => lenZ (g q)) 0 r + i) = Some x.
Proof.
  intros Hr Hi. rewrite (zrange_app 0 r n) by lia. rewrite flat_map_app_f.
  pose proof (nthZ_Some_range _ _ _ Hi) as Hri.
  rewrite nthZ_app_r by (rewrite flat_map_lenZ; lia). rewrite flat_map_lenZ.
  rewrite (zrange_cons r n) by lia. simpl flat_map.
  replace (isum _ 0 r + i - isum _ 0 r) with i by lia.
  rewrite nthZ_app_l by lia. exact Hi.
Qed.

Lemma flat_map_nth_inv {A} (g : Z -> list A) n a x :
  0 <= n -> nthZ (flat_map g (zrange 0 n)) a = Some x ->
  exists r i, 0 <= r < n /\ nthZ (g r) i = Some x /\ a = isum (fun q => lenZ (g q)) 0 r + i.
Proof.
  intros Hn. revert a. pattern n. apply (zind_up _ 0); auto.
  - intros a H. rewrite zrange_nil in H by lia. simpl in H. apply nthZ_Some_range in H.
    unfold lenZ in H. simpl in H. lia.
  - intros b Hb IH a H. rewrite (zrange_app 0 b (b + 1)) in H by lia. rewrite flat_map_app_f in H.
    rewrite (zrange_cons b (b + 1)) in H by lia. rewrite (zrange_nil (b + 1)) in H by lia.
    simpl flat_map in H. rewrite app_nil_r in H.
    pose proof (nthZ_Some_range _ _ _ H) as Ha.
    destruct (Z_lt_dec a (lenZ (flat_map g (zrange 0 b)))) as [Hl|Hl].
    + rewrite nthZ_app_l in H by lia. destruct (IH a H) as (r & i & Hr & Hi & E).
      exists r, i. split; [lia|auto].
    + rewrite nthZ_app_r in H by lia. rewrite flat_map_lenZ in H.
      exists b, (a - isum (fun q => lenZ (g q)) 0 b). split; [lia|]. split; [exact H|lia].
Qed.

(** * First position of an element *)
Fixpoint findpos {A} (eqb : A -> A -> bool) (x : A) (l : list A) (k : Z) : option Z :=
  match l with
  | [] => None
  | y :: t => if eqb x y then Some k else findpos eqb x t (k + 1)
  end.

Lemma findpos_Some {A} (eqb : A -> A -> bool) (Heq : forall x y, eqb x y = true <-> x = y) x l k i :
  findpos eqb x l k = Some i -> k <= i /\ nthZ l (i - k) = Some x.
Proof.
  revert k. induction l as [|y t IH]; intros k H; simpl in H; [discriminate|].
  destruct (eqb x y) eqn:E.
  - injection H as <-. apply Heq in E. subst. split; [lia|].
    replace (k - k) with 0 by lia. reflexivity.
  - apply IH in H. destruct H as [H1 H2]. split; [lia|].
    rewrite nthZ_cons_pos by lia. replace (i - k - 1) with (i - (k + 1)) by lia. exact H2.
Qed.

Lemma findpos_In {A} (eqb : A -> A -> bool) (Heq : forall x y, eqb x y = true <-> x = y) x l k :
  In x l -> exists i, findpos eqb x l k = Some i.
Proof.
  revert k. induction l as [|y t IH]; intros k H; [destruct H|]. simpl.
  destruct (eqb x y) eqn:E; [eauto|]. destruct H as [->|H]; [|auto].
  assert (eqb x x = true) by (apply Heq; reflexivity). congruence.
Qed.

Lemma findpos_None {A} (eqb : A -> A -> bool) (Heq : forall x y, eqb x y = true <-> x = y) x l k :
  findpos eqb x l k = None -> ~ In x l.
Proof. intros H Hin. destruct (findpos_In eqb Heq x l k Hin). congruence. Qed.

(** * Binary digits of a rank in a process grid *)
Lemma div_mod_unique2 a m q r : 0 < m -> 0 <= r < m -> a = q * m + r -> a / m = q /\ a mod m = r.
Proof.
  intros Hm Hr E. split.
  - symmetry. apply Z.div_unique with r; lia.
  - symmetry. apply Z.mod_unique with q; lia.
Qed.

Lemma NoDup_nthZ_spec {A} (l : list A) :
  (forall i j x, nthZ l i = Some x -> nthZ l j = Some x -> i = j) -> NoDup l.
Proof.
  induction l as [|x t IH]; intros H; [constructor|]. constructor.
  - intros Hin. apply In_nthZ in Hin. destruct Hin as (i & Hi & E).
    assert (0 = i + 1); [|lia]. apply (H 0 (i + 1) x); [reflexivity|].
    rewrite nthZ_cons_pos by lia. now replace (i + 1 - 1) with i by lia.
  - apply IH. intros i j y Hi Hj. pose proof (nthZ_Some_range _ _ _ Hi). pose proof (nthZ_Some_range _ _ _ Hj).
    assert (i + 1 = j + 1); [|lia]. apply (H (i + 1) (j + 1) y); rewrite nthZ_cons_pos by lia;
      [now replace (i + 1 - 1) with i by lia | now replace (j + 1 - 1) with j by lia].
Qed.
