(** Proofs about the number syntax. *)
From Coq Require Import String Ascii Reals Lra.
From Verif Require Import Prelude ZSum RSum TypesModel GridModel GridSpec GridProof MeshProof IndexModel IndexSpec IndexProof BodyModel BodySpec BodyProof BodyUse BodyText NumSpec.
Local Open Scope string_scope.
Local Open Scope list_scope.
Local Open Scope Z_scope.

Lemma z10 k : 0 <= k <= 9 -> k = 0 \/ k = 1 \/ k = 2 \/ k = 3 \/ k = 4 \/ k = 5 \/ k = 6 \/ k = 7 \/ k = 8 \/ k = 9.
Proof. lia. Qed.
Lemma digit_char_ok k : 0 <= k <= 9 -> is_digit (digit_char k) = true /\ digit_val (digit_char k) = k /\ is_space (digit_char k) = false /\
  Ascii.eqb (digit_char k) "-" = false /\ Ascii.eqb (digit_char k) "+" = false /\ Ascii.eqb (digit_char k) "." = false.
Proof. intros H. destruct (z10 k H) as [->|[->|[->|[->|[->|[->|[->|[->|[->| ->]]]]]]]]]; repeat split; reflexivity. Qed.

Definition no_digit (s : string) : Prop := match s with "" => True | String c _ => is_digit c = false end.
Lemma digits_all l : are_digits l -> forall acc cnt rest, no_digit rest ->
  digits acc cnt (digit_text l ++ rest)%string = (fold_left (fun a k => 10 * a + k) l acc, cnt + lenZ l, rest).
Proof.
  induction 1 as [|k l Hk Hl IH]; intros acc cnt rest Hr; cbn [digit_text fold_right String.append].
  - replace (cnt + lenZ []) with cnt by (unfold lenZ; cbn; lia). destruct rest as [|c t]; cbn [digits]; [reflexivity|]. cbn in Hr. rewrite Hr. reflexivity.
  - cbn [digits]. destruct (digit_char_ok k Hk) as (-> & -> & _). change (fold_right (fun k s => String (digit_char k) s) "" l) with (digit_text l). rewrite IH by exact Hr.
    cbn [fold_left]. rewrite lenZ_cons. f_equal. f_equal. lia.
Qed.
Lemma fraction_of l : forall acc, (IZR (fold_left (fun a k => 10 * a + k)%Z l acc) / 10 ^ length l = IZR acc + fraction_value l)%R.
Proof.
  induction l as [|k l IH]; intros acc; cbn [fold_left length fraction_value fold_right].
  - cbn. field.
  - change (fold_right (fun k r => ((IZR k + r) / 10)%R) 0%R l) with (fraction_value l).
    replace (_ / 10 ^ S (length l))%R with ((IZR (fold_left (fun a k => 10 * a + k)%Z l (10 * acc + k)%Z) / 10 ^ length l) / 10)%R.
    + rewrite IH, plus_IZR, mult_IZR. field.
    + cbn [pow]. field. apply pow_nonzero. lra.
Qed.
Lemma blank_skip b s : is_blank b -> skip_ws (b ++ s)%string = skip_ws s.
Proof. induction b as [|c t IH]; [reflexivity|]. cbn [is_blank String.append skip_ws]. intros [[->| ->] H]; cbn; auto. Qed.

(** What may follow a numeral. *)
Definition gap (s : string) : Prop := s = "" \/ exists c t, s = String c t /\ (c = " "%char \/ c = ascii_of_nat 9).
Lemma gap_no_digit s : gap s -> no_digit s.
Proof. intros [->|(c & t & -> & [->| ->])]; cbn; auto. Qed.

(** A text that starts with digits or with a point. *)
Definition headed (s : string) : Prop := match s with "" => False | String c _ => is_digit c = true \/ c = "."%char end.
Lemma headed_char c t : headed (String c t) -> is_space c = false /\ Ascii.eqb c "-" = false /\ Ascii.eqb c "+" = false.
Proof.
  intros [H| ->]; [|auto]. unfold is_digit in H. apply Bool.andb_true_iff in H. destruct H as [H1 H2]. apply Nat.leb_le in H1, H2.
  assert (N : forall x, (nat_of_ascii x < 48)%nat -> Ascii.eqb c x = false) by (intros x Hx; destruct (Ascii.eqb_spec c x); [subst; lia|reflexivity]).
  split; [|split; apply N; cbn; lia]. unfold is_space. destruct (Nat.eqb_spec (nat_of_ascii c) 32); [lia|]. destruct (Nat.leb_spec (nat_of_ascii c) 13); [lia|]. now rewrite Bool.andb_false_r.
Qed.
Lemma sign_skip sg s : is_sign sg -> headed s -> sign (skip_ws (sg ++ s)%string) = (sign_value sg, s).
Proof.
  intros [->|[->| ->]] H; cbn [String.append].
  - destruct s as [|c t]; [destruct H|]. destruct (headed_char _ _ H) as (E1 & E2 & E3). cbn [skip_ws]. rewrite E1. cbn [sign]. rewrite E2, E3. reflexivity.
  - reflexivity.
  - reflexivity.
Qed.
Lemma sign_digits sg e s : is_sign sg -> are_digits e -> e <> [] -> sign (sg ++ digit_text e ++ s)%string = (sign_value sg, (digit_text e ++ s)%string).
Proof.
  intros Hs He Hn. destruct e as [|k e]; [contradiction|]. inversion He as [|? ? Hk _]; subst. destruct (digit_char_ok k Hk) as (_ & _ & _ & E2 & E3 & _).
  destruct Hs as [->|[->| ->]]; cbn [String.append digit_text fold_right sign]; [|reflexivity|reflexivity]. rewrite E2, E3. reflexivity.
Qed.
Lemma app_s_assoc (a b c : string) : ((a ++ b) ++ c)%string = (a ++ (b ++ c))%string.
Proof. induction a as [|h a IH]; cbn [String.append]; [reflexivity|now rewrite IH]. Qed.
Lemma digits_headed l s : are_digits l -> l <> [] -> headed (digit_text l ++ s)%string.
Proof. intros H Hn. destruct l as [|k l]; [contradiction|]. inversion H as [|? ? Hk _]; subst. left. exact (proj1 (digit_char_ok k Hk)). Qed.
Lemma whole_nonneg l : are_digits l -> forall acc, 0 <= acc -> 0 <= fold_left (fun a k => 10 * a + k) l acc.
Proof. induction 1 as [|k l Hk Hl IH]; intros acc Ha; cbn [fold_left]; [exact Ha|]. apply IH. lia. Qed.
Lemma nonempty_lenZ {A} (l : list A) : l <> [] -> 0 < lenZ l.
Proof. destruct l; [contradiction|]. intros _. rewrite lenZ_cons. pose proof (lenZ_nonneg l). lia. Qed.
Lemma pow_lenZ (l : list Z) : (10 ^ Z.to_nat (0 + lenZ l) = 10 ^ length l)%R.
Proof. f_equal. unfold lenZ. lia. Qed.

Lemma real_of b u rest : is_blank b -> is_numeral u -> gap rest -> cxx_real (b ++ numeral_text u ++ rest)%string = Some (numeral_value u, rest).
Proof.
  intros Hb (Hs & Hi & Hf & He) Hg. unfold cxx_real. rewrite blank_skip by exact Hb.
  destruct u as [sg ip fp ex]. unfold numeral_text, numeral_value. cbn [nu_sign nu_int nu_frac nu_exp] in *. rewrite !app_s_assoc.
  set (et := match ex with Some (c, sg', e) => String c (sg' ++ digit_text e) | None => "" end).
  assert (Het : no_digit (et ++ rest)%string /\ forall c t, (et ++ rest)%string = String c t -> Ascii.eqb c "." = false).
  { unfold et. destruct ex as [[[c sg'] e]|]; cbn [String.append].
    - destruct He as ([->| ->] & _); split; [reflexivity|intros c t E; injection E as <- _; reflexivity|reflexivity|intros c t E; injection E as <- _; reflexivity].
    - split; [now apply gap_no_digit|]. intros c t E. destruct Hg as [->|(c' & t' & -> & [->| ->])]; [discriminate|injection E as <- _; reflexivity|injection E as <- _; reflexivity]. }
  destruct Het as [Het Hdot].
  assert (Tail : forall (v : Z) (x : R), (IZR v * x = IZR v * x)%R ->
    forall mm, match (et ++ rest)%string with
      | "" => Some (mm, (et ++ rest)%string)
      | String c t => if (Ascii.eqb c "e" || Ascii.eqb c "E")%bool then
          let (se, s4) := sign t in let '(e, ne, s5) := digits 0 0 s4 in
          if (ne =? 0)%Z then None else Some ((if (se <? 0)%Z then mm / 10 ^ Z.to_nat e else mm * 10 ^ Z.to_nat e)%R, s5)
        else Some (mm, (et ++ rest)%string) end
      = Some ((mm * powerRZ 10 (match ex with Some (_, sg', e) => sign_value sg' * whole_value e | None => 0 end))%R, rest)).
  { intros _ _ _ mm. unfold et. destruct ex as [[[c sg'] e]|]; cbn [String.append].
    - destruct He as (Hc & Hs' & He & Hn). replace (Ascii.eqb c "e" || Ascii.eqb c "E")%bool with true by (destruct Hc as [->| ->]; reflexivity).
      rewrite app_s_assoc, sign_digits by auto. rewrite digits_all by (auto using gap_no_digit). fold (whole_value e).
      pose proof (nonempty_lenZ e Hn). destruct (Z.eqb_spec (0 + lenZ e) 0); [lia|]. f_equal. f_equal.
      pose proof (whole_nonneg e He 0 ltac:(lia)) as Hw. fold (whole_value e) in Hw.
      assert (PW : forall k, 0 <= k -> powerRZ 10 k = (10 ^ Z.to_nat k)%R) by (intros k Hk; rewrite pow_powerRZ, Z2Nat.id by lia; reflexivity).
      destruct Hs' as [->|[->| ->]]; cbn [sign_value String.eqb Ascii.eqb Bool.eqb Z.ltb Z.compare].
      + rewrite Z.mul_1_l, PW by lia. reflexivity.
      + rewrite Z.mul_1_l, PW by lia. reflexivity.
      + change (-1 * whole_value e) with (- (whole_value e)). rewrite powerRZ_neg', PW by (try lra; lia). reflexivity.
    - rewrite powerRZ_O, Rmult_1_r. destruct Hg as [->|(c' & t' & -> & [->| ->])]; reflexivity. }
  destruct fp as [f|].
  - destruct Hf as [Hf Hne]. cbn [String.append] in *.
    assert (HH : headed (digit_text ip ++ String "." (digit_text f ++ et ++ rest))%string).
    { destruct ip as [|k ip]; [right; reflexivity|]. apply digits_headed; [exact Hi|discriminate]. }
    rewrite sign_skip by (rewrite ?app_s_assoc; auto).
    rewrite digits_all by (auto; reflexivity). cbn [Ascii.eqb Bool.eqb].
    rewrite ?app_s_assoc, digits_all by auto. fold (whole_value ip).
    assert (Hn : 0 + lenZ ip + (0 + lenZ f) <> 0) by (pose proof (lenZ_nonneg ip); pose proof (lenZ_nonneg f); pose proof (nonempty_lenZ _ Hne) as X; rewrite lenZ_app in X; lia).
    destruct (Z.eqb_spec (0 + lenZ ip + (0 + lenZ f)) 0); [contradiction|]. rewrite (Tail 0 0%R eq_refl). f_equal. f_equal. f_equal.
    rewrite pow_lenZ, mult_IZR. unfold Rdiv. rewrite Rmult_assoc. f_equal. apply fraction_of.
  - cbn [String.append] in *. rewrite sign_skip by (auto using digits_headed). rewrite digits_all by auto. fold (whole_value ip).
    replace (match (et ++ rest)%string with "" => (whole_value ip, 0, "") | String c t => if Ascii.eqb c "." then digits (whole_value ip) 0 t else (whole_value ip, 0, (et ++ rest)%string) end)
      with (whole_value ip, 0, (et ++ rest)%string) by (destruct (et ++ rest)%string as [|c t]; [reflexivity|]; rewrite (Hdot c t eq_refl); reflexivity).
    pose proof (nonempty_lenZ _ Hf). destruct (Z.eqb_spec (0 + lenZ ip + 0) 0); [lia|]. rewrite (Tail 0 0%R eq_refl). f_equal. f_equal. f_equal.
    rewrite mult_IZR. cbn. field.
Qed.

Lemma int_of b sg l rest : is_blank b -> is_sign sg -> are_digits l -> l <> [] -> gap rest ->
  cxx_int (b ++ sg ++ digit_text l ++ rest)%string = Some (sign_value sg * whole_value l, rest).
Proof.
  intros Hb Hs Hl Hn Hg. unfold cxx_int. rewrite blank_skip by exact Hb. rewrite sign_skip by (auto using digits_headed). rewrite digits_all by (auto using gap_no_digit).
  pose proof (nonempty_lenZ l Hn). destruct (Z.eqb_spec (0 + lenZ l) 0); [lia|]. reflexivity.
Qed.

Lemma blank_gap b s : is_blank b -> b <> "" -> gap (b ++ s)%string.
Proof. destruct b as [|c t]; [contradiction|]. intros [H _] _. right. exists c, (t ++ s)%string. auto. Qed.

Lemma line_of l : is_line l -> exact_line cxx (line_text l) (map (fun bu => numeral_value (snd bu)) l).
Proof.
  intros [H T]. unfold exact_line. revert T. induction H as [|[b u] l [Hb Hu] Hl IH]; intros T; cbn [map line_text fold_right fst snd]; [constructor|].
  cbn [tl] in T. change (fold_right _ "" l) with (line_text l).
  assert (G : gap (line_text l)).
  { destruct Hl as [|[b' u'] l' [Hb' _] _]; [left; reflexivity|]. inversion T; subst. cbn [line_text fold_right fst snd] in *. apply blank_gap; auto. }
  econstructor; [exact (real_of b u _ Hb Hu G)|]. apply IH. destruct l as [|x l']; [constructor|]. now inversion T.
Qed.
Lemma file_of dim (count : string * list Z) (ls : list (list (string * numeral))) nl :
  is_blank (fst count) -> are_digits (snd count) -> snd count <> [] -> whole_value (snd count) = lenZ ls -> Forall is_line ls -> Forall (fun l => lenZ l = dim) ls ->
  point_file cxx dim (lenZ ls) (map (map (fun bu => numeral_value (snd bu))) ls) (mkText ((fst count ++ digit_text (snd count))%string :: map line_text ls) nl).
Proof.
  destruct count as [b l]. cbn [fst snd]. intros Hb Hl Hn Hc HL HD. eexists _, _. split; [reflexivity|]. split.
  - cbn [lex_int cxx]. pose proof (int_of b "" l "" Hb (or_introl eq_refl) Hl Hn (or_introl eq_refl)) as E. cbn [String.append] in E.
    assert (A : forall s : string, (s ++ "")%string = s) by (induction s as [|c t IH]; cbn; [reflexivity|now rewrite IH]). rewrite A in E. rewrite E. cbn [sign_value String.eqb]. now rewrite Z.mul_1_l, Hc.
  - split; [apply lenZ_map|]. split.
    + clear Hc HD. induction HL; cbn [map]; constructor; auto using line_of.
    + apply Forall_map. eapply Forall_impl; [|exact HD]. cbv beta. intros r Hr. now rewrite lenZ_map.
Qed.
