From Coq Require Import String Ascii ZifyBool.
From Verif Require Import Prelude NameModel NameSpec.
Local Open Scope Z_scope.

Lemma digit_code d : 0 <= d < 10 -> Z.of_nat (nat_of_ascii (digit d)) = 48 + d.
Proof. intros H. unfold digit. rewrite nat_ascii_embedding; lia. Qed.

Lemma digits_val fuel n acc : 0 <= n < 2 ^ Z.of_nat fuel -> (0 < fuel)%nat -> val (digits_aux fuel n acc) 0 = val acc n.
Proof.
  revert n acc. induction fuel as [|f IH]; intros n acc Hn Hf; [lia|]. cbn [digits_aux].
  pose proof (Z.mod_pos_bound n 10 ltac:(lia)) as Hm. pose proof (Z.div_mod n 10 ltac:(lia)) as Hd.
  assert (Hq : 0 <= n / 10) by (apply Z.div_pos; lia).
  destruct (Z.eqb_spec (n / 10) 0) as [E|E].
  - cbn [val]. rewrite digit_code by lia. f_equal. lia.
  - rewrite Nat2Z.inj_succ, Z.pow_succ_r in Hn by lia. destruct f as [|f]; [cbn in Hn; lia|]. rewrite IH; [|lia|lia].
    cbn [val]. rewrite digit_code by lia. f_equal. lia.
Qed.
Lemma decimal_val n : 0 <= n -> val (decimal n) 0 = n.
Proof.
  intros H. unfold decimal. rewrite digits_val; [reflexivity| |lia]. split; [lia|].
  destruct (Z.eq_dec n 0) as [->|]; [reflexivity|]. pose proof (Z.log2_spec n ltac:(lia)). pose proof (Z.log2_nonneg n).
  rewrite Nat2Z.inj_succ, Z2Nat.id by lia. lia.
Qed.
Lemma val_zeros k s : val (String.append (zeros k) s) 0 = val s 0.
Proof. induction k as [|k IH]; [reflexivity|]. cbn [zeros String.append val]. exact IH. Qed.
Lemma step_name_val n : 0 <= n -> val (step_name n) 0 = n.
Proof.
  intros H. unfold step_name, pad7. rewrite val_zeros. unfold to_string. replace (n <? 0) with false by lia. now apply decimal_val.
Qed.
Lemma step_name_inj n k : 0 <= n -> 0 <= k -> step_name n = step_name k -> n = k.
Proof. intros Hn Hk E. rewrite <- (step_name_val n Hn), <- (step_name_val k Hk). now rewrite E. Qed.

Lemma printf_agrees n : 0 <= n -> printf07 n = step_name n.
Proof. intros H. unfold printf07, step_name, to_string. replace (n <? 0) with false by lia. reflexivity. Qed.

(** Lengths *)
Lemma str_len_app s t : String.length (String.append s t) = (String.length s + String.length t)%nat.
Proof. induction s as [|c s IH]; [reflexivity|]. cbn [String.append String.length]. lia. Qed.
Lemma zeros_len k : String.length (zeros k) = k.
Proof. induction k; cbn [zeros String.length]; auto. Qed.
Lemma digits_len fuel n acc k : (1 <= k)%nat -> 0 <= n < 10 ^ Z.of_nat k -> (String.length (digits_aux fuel n acc) <= String.length acc + k)%nat.
Proof.
  revert n acc k. induction fuel as [|f IH]; intros n acc k Hk Hn; [cbn; lia|]. cbn [digits_aux].
  assert (Hq : 0 <= n / 10) by (apply Z.div_pos; lia).
  destruct (Z.eqb_spec (n / 10) 0) as [E|E]; [cbn [String.length]; lia|].
  destruct k as [|k]; [lia|]. rewrite Nat2Z.inj_succ, Z.pow_succ_r in Hn by lia.
  assert (n / 10 < 10 ^ Z.of_nat k) by (apply Z.div_lt_upper_bound; lia).
  assert (k <> 0%nat) by (intros ->; cbn in *; lia).
  eapply Nat.le_trans; [apply (IH (n / 10) _ k); lia|]. cbn [String.length]. lia.
Qed.
Lemma step_name_len n : 0 <= n < 10 ^ 7 -> String.length (step_name n) = 7%nat.
Proof.
  intros H. unfold step_name, pad7. rewrite str_len_app, zeros_len.
  assert (String.length (to_string n) <= 7)%nat; [|lia].
  unfold to_string. replace (n <? 0) with false by lia. exact (digits_len _ n "" 7 ltac:(lia) ltac:(lia)).
Qed.

(** All characters are digits. *)
Fixpoint all_digits (s : string) : Prop :=
  match s with EmptyString => True | String c t => 48 <= Z.of_nat (nat_of_ascii c) <= 57 /\ all_digits t end.
Lemma digits_digits fuel n acc : 0 <= n -> all_digits acc -> all_digits (digits_aux fuel n acc).
Proof.
  revert n acc. induction fuel as [|f IH]; intros n acc Hn Ha; [exact Ha|]. cbn [digits_aux].
  pose proof (Z.mod_pos_bound n 10 ltac:(lia)) as Hm.
  assert (all_digits (String (digit (n mod 10)) acc)) by (split; [rewrite digit_code by lia; lia|exact Ha]).
  destruct (n / 10 =? 0); auto. apply IH; auto. apply Z.div_pos; lia.
Qed.
Lemma zeros_digits k s : all_digits s -> all_digits (String.append (zeros k) s).
Proof. intros H. induction k as [|k IH]; [exact H|]. cbn [zeros String.append all_digits]. split; [cbn; lia|exact IH]. Qed.
Lemma step_name_digits n : 0 <= n -> all_digits (step_name n).
Proof.
  intros H. unfold step_name, pad7. apply zeros_digits. unfold to_string. replace (n <? 0) with false by lia.
  apply digits_digits; [lia|exact I].
Qed.

Lemma val_bounds s a : all_digits s -> 0 <= a -> a * 10 ^ Z.of_nat (String.length s) <= val s a < (a + 1) * 10 ^ Z.of_nat (String.length s).
Proof.
  revert a. induction s as [|c s IH]; intros a Hs Ha; [cbn; lia|]. destruct Hs as [Hc Hs]. cbn [val String.length].
  rewrite Nat2Z.inj_succ, Z.pow_succ_r by lia. specialize (IH (10 * a + (Z.of_nat (nat_of_ascii c) - 48)) Hs ltac:(lia)).
  pose proof (Z.pow_pos_nonneg 10 (Z.of_nat (String.length s)) ltac:(lia) ltac:(lia)). nia.
Qed.
Lemma lex_of_val s t a : all_digits s -> all_digits t -> String.length s = String.length t -> 0 <= a -> val s a < val t a -> str_lt s t.
Proof.
  revert t a. induction s as [|c s IH]; intros [|d t] a Hs Ht L Ha H; try discriminate; [cbn in H; lia|].
  destruct Hs as [Hc Hs]. destruct Ht as [Hd Ht]. cbn [val str_lt] in *. injection L as L.
  destruct (lt_eq_lt_dec (nat_of_ascii c) (nat_of_ascii d)) as [[E|E]|E]; [now left| |].
  - right. assert (c = d) as -> by (rewrite <- (ascii_nat_embedding c), <- (ascii_nat_embedding d), E; reflexivity). split; [reflexivity|].
    apply (IH t (10 * a + (Z.of_nat (nat_of_ascii d) - 48))); auto. lia.
  - exfalso. pose proof (val_bounds s (10 * a + (Z.of_nat (nat_of_ascii c) - 48)) Hs ltac:(lia)) as B1.
    pose proof (val_bounds t (10 * a + (Z.of_nat (nat_of_ascii d) - 48)) Ht ltac:(lia)) as B2. rewrite L in B1.
    pose proof (Z.pow_pos_nonneg 10 (Z.of_nat (String.length t)) ltac:(lia) ltac:(lia)). nia.
Qed.
Lemma step_name_order n k : 0 <= n < k -> k < 10 ^ 7 -> str_lt (step_name n) (step_name k).
Proof.
  intros H Hk. apply (lex_of_val _ _ 0); [apply step_name_digits; lia|apply step_name_digits; lia|rewrite !step_name_len; lia|lia|rewrite !step_name_val; lia].
Qed.

(** Paths *)
Lemma str_app_inj_l s t u : String.append s t = String.append s u -> t = u.
Proof. induction s as [|c s IH]; intros H; [exact H|]. injection H as H. auto. Qed.
Lemma str_app_assoc s t u : String.append (String.append s t) u = String.append s (String.append t u).
Proof. induction s as [|c s IH]; [reflexivity|]. cbn [String.append]. now rewrite IH. Qed.
Fixpoint last_char (s : string) : option ascii :=
  match s with EmptyString => None | String c EmptyString => Some c | String _ t => last_char t end.
Lemma last_app s t : t <> ""%string -> last_char (String.append s t) = last_char t.
Proof.
  intros H. induction s as [|c s IH]; [reflexivity|]. cbn [String.append]. rewrite <- IH.
  destruct (String.append s t) eqn:E; [|reflexivity]. destruct s, t; discriminate || contradiction.
Qed.
Lemma str_app_inj_r s t u : String.length s = String.length t -> String.append s u = String.append t u -> s = t.
Proof.
  revert t. induction s as [|c s IH]; intros [|d t] L H; try discriminate; [reflexivity|]. injection H as -> H. injection L as L. f_equal. auto.
Qed.
Lemma str_app_inj_r' s t u : String.append s u = String.append t u -> s = t.
Proof.
  intros H. apply str_app_inj_r with (u := u); auto. apply (f_equal String.length) in H. rewrite !str_len_app in H. lia.
Qed.
Lemma solution_path_inj out n k : 0 <= n -> 0 <= k -> solution_path out n = solution_path out k -> n = k.
Proof.
  intros Hn Hk E. unfold solution_path in E. apply str_app_inj_l in E. cbn [String.append] in E. injection E as E.
  apply str_app_inj_r' in E. now apply step_name_inj.
Qed.
Lemma log_not_solution out logs n k : log_path logs n <> solution_path out k.
Proof.
  intros E. apply (f_equal last_char) in E. unfold log_path, solution_path in E.
  rewrite <- !str_app_assoc in E. rewrite !last_app in E by discriminate. discriminate.
Qed.
Lemma iterations_not_solution out n k out' : iterations_path out n <> solution_path out' k.
Proof.
  intros E. apply (f_equal last_char) in E. unfold iterations_path, solution_path in E.
  rewrite <- !str_app_assoc in E. rewrite !last_app in E by discriminate. discriminate.
Qed.

(** The XDMF loop *)
Lemma xdmf_ends fuel bg ed step l : 0 < step -> xdmf_steps fuel bg ed step = Some l ->
  (forall t, In t l <-> bg <= t <= ed /\ (step | t - bg)) /\ NoDup l.
Proof.
  intros Hs. revert bg l. induction fuel as [|f IH]; intros bg l H; cbn [xdmf_steps] in H; destruct (Z.leb_spec bg ed) as [E|E].
  - discriminate.
  - injection H as <-. split; [|constructor]. intros t. split; [intros []|lia].
  - destruct (xdmf_steps f (bg + step) ed step) as [l'|] eqn:El; [|discriminate]. injection H as <-. destruct (IH _ _ El) as [I N]. split.
    + intros t. cbn [In]. rewrite I. split.
      * intros [<-|[Ht [q Hq]]]; [split; [lia|exists 0; lia]|]. split; [lia|]. exists (q + 1). lia.
      * intros [Ht [q Hq]]. destruct (Z.eq_dec q 0) as [->|Hne]; [left; lia|]. right. assert (0 < q) by nia. split; [nia|]. exists (q - 1). lia.
    + constructor; auto. rewrite I. lia.
  - injection H as <-. split; [|constructor]. intros t. split; [intros []|lia].
Qed.
Lemma xdmf_terminates fuel bg ed step : 0 < step -> ed - bg < Z.of_nat fuel -> exists l, xdmf_steps fuel bg ed step = Some l.
Proof.
  intros Hs. revert bg. induction fuel as [|f IH]; intros bg Hf; cbn [xdmf_steps]; destruct (Z.leb_spec bg ed); try lia; eauto.
  destruct (IH (bg + step) ltac:(lia)) as [l ->]. eauto.
Qed.
Lemma xdmf_diverges fuel bg ed step : step <= 0 -> bg <= ed -> xdmf_steps fuel bg ed step = None.
Proof.
  intros Hs. revert bg. induction fuel as [|f IH]; intros bg Hb; cbn [xdmf_steps]; replace (bg <=? ed) with true by lia; [reflexivity|].
  rewrite IH by lia. reflexivity.
Qed.
