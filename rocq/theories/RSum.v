(** Finite sums of reals over lists and integer ranges. *)
From Coq Require Export Reals Lra.
From Coq Require Import Permutation ZifyBool.
From Verif Require Export Prelude.
Local Open Scope R_scope.

Fixpoint sumR {A} (f : A -> R) (l : list A) : R :=
  match l with [] => 0 | x :: t => f x + sumR f t end.

(** sum_{i=a}^{b-1} f i *)
Definition zsum (f : Z -> R) (a b : Z) : R := sumR f (zrange a b).

Lemma sumR_ext {A} (f g : A -> R) l :
  (forall x, In x l -> f x = g x) -> sumR f l = sumR g l.
Proof.
  induction l as [|x t IH]; simpl; intros H; [reflexivity|].
  rewrite (H x) by auto. rewrite IH; auto.
Qed.

Lemma sumR_app {A} (f : A -> R) l1 l2 : sumR f (l1 ++ l2) = sumR f l1 + sumR f l2.
Proof. induction l1; simpl; lra. Qed.

Lemma sumR_plus {A} (f g : A -> R) l :
  sumR (fun x => f x + g x) l = sumR f l + sumR g l.
Proof. induction l; simpl; lra. Qed.

Lemma sumR_minus {A} (f g : A -> R) l :
  sumR (fun x => f x - g x) l = sumR f l - sumR g l.
Proof. induction l; simpl; lra. Qed.

Lemma sumR_opp {A} (f : A -> R) l : sumR (fun x => - f x) l = - sumR f l.
Proof. induction l; simpl; lra. Qed.

Lemma sumR_scal {A} (c : R) (f : A -> R) l :
  sumR (fun x => c * f x) l = c * sumR f l.
Proof. induction l; simpl; lra. Qed.

Lemma sumR_scal_r {A} (c : R) (f : A -> R) l :
  sumR (fun x => f x * c) l = sumR f l * c.
Proof. induction l; simpl; lra. Qed.

Lemma sumR_zero {A} (f : A -> R) l : (forall x, In x l -> f x = 0) -> sumR f l = 0.
Proof.
  induction l as [|x t IH]; simpl; intros H; [reflexivity|].
  rewrite (H x) by auto. rewrite IH by auto. lra.
Qed.

Lemma sumR_const {A} (c : R) (l : list A) : sumR (fun _ => c) l = INR (length l) * c.
Proof. induction l as [|x t IH]; [simpl; lra|]. rewrite S_INR || idtac. simpl sumR. rewrite IH.
  change (length (x :: t)) with (S (length t)). rewrite S_INR. lra. Qed.

Lemma sumR_map {A B} (g : A -> B) (f : B -> R) l :
  sumR f (map g l) = sumR (fun x => f (g x)) l.
Proof. induction l; simpl; [reflexivity|]. now rewrite IHl. Qed.

Lemma sumR_flat_map {A B} (g : A -> list B) (f : B -> R) l :
  sumR f (flat_map g l) = sumR (fun x => sumR f (g x)) l.
Proof. induction l; simpl; [reflexivity|]. rewrite sumR_app. now rewrite IHl. Qed.

Lemma sumR_perm {A} (f : A -> R) l1 l2 : Permutation l1 l2 -> sumR f l1 = sumR f l2.
Proof. induction 1; simpl; lra. Qed.

Lemma sumR_swap {A B} (f : A -> B -> R) l1 l2 :
  sumR (fun x => sumR (fun y => f x y) l2) l1 = sumR (fun y => sumR (fun x => f x y) l1) l2.
Proof.
  induction l1 as [|x t IH]; simpl.
  - symmetry. apply sumR_zero. reflexivity.
  - rewrite IH. now rewrite <- sumR_plus.
Qed.

Lemma sumR_nonneg {A} (f : A -> R) l : (forall x, In x l -> 0 <= f x) -> 0 <= sumR f l.
Proof.
  induction l as [|x t IH]; simpl; intros H; [lra|].
  pose proof (H x (or_introl eq_refl)). assert (0 <= sumR f t) by (apply IH; auto). lra.
Qed.

Lemma sumR_le {A} (f g : A -> R) l : (forall x, In x l -> f x <= g x) -> sumR f l <= sumR g l.
Proof.
  induction l as [|x t IH]; simpl; intros H; [lra|].
  pose proof (H x (or_introl eq_refl)). assert (sumR f t <= sumR g t) by (apply IH; auto). lra.
Qed.

Lemma sumR_nonneg_zero {A} (f : A -> R) l :
  (forall x, In x l -> 0 <= f x) -> sumR f l = 0 -> forall x, In x l -> f x = 0.
Proof.
  induction l as [|y t IH]; simpl; intros H E x Hx; [contradiction|].
  pose proof (H y (or_introl eq_refl)).
  assert (0 <= sumR f t) by (apply sumR_nonneg; auto).
  destruct Hx as [->|Hx]; [lra|]. apply IH; auto. lra.
Qed.

Lemma sumR_single {A} (f : A -> R) (l : list A) (x : A) :
  NoDup l -> In x l -> (forall y, In y l -> y <> x -> f y = 0) -> sumR f l = f x.
Proof.
  induction l as [|y t IH]; simpl; intros Hnd Hx H; [contradiction|].
  inversion Hnd; subst. destruct Hx as [->|Hx].
  - rewrite sumR_zero; [lra|]. intros z Hz. apply H; auto. intros ->. contradiction.
  - rewrite (H y) by (auto; intros ->; contradiction). rewrite IH; auto. lra.
Qed.

Lemma zsum_nil f a b : (b <= a)%Z -> zsum f a b = 0.
Proof. intros. unfold zsum. rewrite zrange_nil by lia. reflexivity. Qed.

Lemma zsum_cons f a b : (a < b)%Z -> zsum f a b = f a + zsum f (a + 1) b.
Proof. intros. unfold zsum. rewrite zrange_cons by lia. reflexivity. Qed.

Lemma zsum_snoc f a b : (a < b)%Z -> zsum f a b = zsum f a (b - 1) + f (b - 1)%Z.
Proof. intros. unfold zsum. rewrite zrange_snoc by lia. rewrite sumR_app. simpl. lra. Qed.

Lemma zsum_snoc' f a b : (a <= b)%Z -> zsum f a (b + 1) = zsum f a b + f b.
Proof. intros. rewrite zsum_snoc by lia. now replace (b + 1 - 1)%Z with b by lia. Qed.

Lemma zsum_app f a b c : (a <= b <= c)%Z -> zsum f a c = zsum f a b + zsum f b c.
Proof. intros. unfold zsum. rewrite (zrange_app a b c) by lia. apply sumR_app. Qed.

Lemma zsum_ext f g a b : (forall i, (a <= i < b)%Z -> f i = g i) -> zsum f a b = zsum g a b.
Proof. intros H. apply sumR_ext. intros x Hx. apply H. now apply zrange_In. Qed.

Lemma zsum_shift f a b k : zsum f (a + k) (b + k) = zsum (fun i => f (i + k)%Z) a b.
Proof.
  unfold zsum. rewrite <- (sumR_map (fun i => (i + k)%Z) f).
  f_equal. rewrite <- (map_id (zrange (a + k) (b + k))). apply (map_zrange_shift (fun x => x)).
Qed.

(** Induction on the upper end of a range. *)
Lemma zrange_ind_up (P : Z -> Prop) a :
  P a -> (forall b, (a <= b)%Z -> P b -> P (b + 1)%Z) -> forall b, (a <= b)%Z -> P b.
Proof.
  intros H0 HS b Hb. replace b with (a + Z.of_nat (Z.to_nat (b - a)))%Z by lia.
  induction (Z.to_nat (b - a)) as [|n IH].
  - now rewrite Z.add_0_r.
  - replace (a + Z.of_nat (S n))%Z with (a + Z.of_nat n + 1)%Z by lia. apply HS; auto; lia.
Qed.

Lemma zsum_telescope f a b : (a <= b)%Z ->
  zsum (fun i => f (i + 1)%Z - f i) a b = f b - f a.
Proof.
  intros H. pattern b. apply (zrange_ind_up _ a); auto.
  - rewrite zsum_nil by lia. lra.
  - intros c Hc IH. rewrite zsum_snoc' by lia. rewrite IH. lra.
Qed.

Lemma zsum_telescope_m f a b : (a <= b)%Z ->
  zsum (fun i => f i - f (i - 1)%Z) a b = f (b - 1)%Z - f (a - 1)%Z.
Proof.
  intros H. pattern b. apply (zrange_ind_up _ a); auto.
  - rewrite zsum_nil by lia. lra.
  - intros c Hc IH. rewrite zsum_snoc' by lia. rewrite IH.
    replace (c + 1 - 1)%Z with c by lia. lra.
Qed.

Lemma zsum_const c a b : (a <= b)%Z -> zsum (fun _ => c) a b = IZR (b - a) * c.
Proof.
  intros H. pattern b. apply (zrange_ind_up _ a); auto.
  - rewrite zsum_nil by lia. replace (a - a)%Z with 0%Z by lia. lra.
  - intros d Hd IH. rewrite zsum_snoc' by lia. rewrite IH.
    replace (d + 1 - a)%Z with (d - a + 1)%Z by lia. rewrite plus_IZR. lra.
Qed.
