(** C46: the numbers of the body files. *)
From Coq Require Import String Ascii Reals Lra ZifyBool.
From Verif Require Import Prelude ZSum RSum TypesModel GridModel GridSpec GridProof MeshProof IndexModel IndexSpec IndexProof BodyModel BodySpec BodyProof BodyUse BodyText BodyProps NumSpec NumProof.
Local Open Scope string_scope.
Local Open Scope list_scope.
Local Open Scope Z_scope.

(** C46: a number of a file is read as the value of the numeral, whatever blanks
    precede it and whatever follows it after a blank. *)
Theorem numerals_read : forall b u t, is_blank b -> is_numeral u ->
  lex_real cxx (b ++ numeral_text u) = Some (numeral_value u, "") /\
  lex_real cxx (b ++ numeral_text u ++ " " ++ t) = Some (numeral_value u, (" " ++ t)%string) /\
  lex_real cxx (b ++ numeral_text u ++ tab ++ t) = Some (numeral_value u, (tab ++ t)%string).
Proof.
  intros b u t Hb Hu. split; [|split].
  - pose proof (real_of b u "" Hb Hu (or_introl eq_refl)) as E.
    assert (A : forall s : string, (s ++ "")%string = s) by (induction s as [|c s' IH]; cbn; [reflexivity|now rewrite IH]). rewrite A in E. exact E.
  - apply real_of; auto. right. exists " "%char, t. auto.
  - apply real_of; auto. right. exists (ascii_of_nat 9), t. auto.
Qed.
Print Assumptions numerals_read.

(** C46: a count is read as the value of its digits, with its sign. *)
Theorem counts_read : forall b sg l, is_blank b -> is_sign sg -> are_digits l -> l <> [] ->
  lex_int cxx (b ++ sg ++ digit_text l) = Some (sign_value sg * whole_value l, "").
Proof.
  intros b sg l Hb Hs Hl Hn. pose proof (int_of b sg l "" Hb Hs Hl Hn (or_introl eq_refl)) as E.
  assert (A : forall s : string, (s ++ "")%string = s) by (induction s as [|c s' IH]; cbn; [reflexivity|now rewrite IH]). rewrite A in E. exact E.
Qed.
Print Assumptions counts_read.

(** C46: a file with the number of points in digits and, for each point, a line
    of [dim] decimal numerals, is read to the values of the numerals; the last
    line may or may not be ended. *)
Theorem numeral_file_read : forall dim count (ls : list (list (string * numeral))) nl,
  1 <= dim -> ls <> [] -> is_blank (fst count) -> are_digits (snd count) -> snd count <> [] -> whole_value (snd count) = lenZ ls ->
  Forall is_line ls -> Forall (fun l => lenZ l = dim) ls ->
  readLagrangianPoints cxx (Some (mkText ((fst count ++ digit_text (snd count))%string :: map line_text ls) nl))
    = Ok (lenZ ls, map (map (fun bu => numeral_value (snd bu))) ls).
Proof.
  intros dim count ls nl Hd Hn Hb Hc Hcn Hl HL HD. apply body_file_read with (dim := dim); [apply cxx_syntax_proper|exact Hd| |now apply file_of].
  pose proof (nonempty_lenZ ls Hn). lia.
Qed.
Print Assumptions numeral_file_read.

(** Two points, with an exponent and without digits before the point. *)
Example numerals_case :
  let ls := [[("", mkNum "" [1; 2] (Some [5]) (Some ("e"%char, "-", [0; 1]))); (" ", mkNum "-" [] (Some [2; 5]) None)];
             [(" ", mkNum "+" [3] None (Some ("E"%char, "", [2]))); (tab, mkNum "" [4] (Some []) None)]] in
  map line_text ls = ["12.5e-01 -.25"; (" +3E2" ++ tab ++ "4.")%string] /\ Forall is_line ls /\ Forall (fun l => lenZ l = 2) ls /\ whole_value [0; 2] = lenZ ls /\
  map (map (fun bu => numeral_value (snd bu))) ls = [[1.25; -0.25]; [300; 4]]%R.
Proof.
  assert (S0 : is_sign "") by (now left). assert (S1 : is_sign "+") by (right; now left). assert (S2 : is_sign "-") by (right; now right).
  cbv zeta. split; [reflexivity|]. split; [|split; [repeat constructor|split; [reflexivity|]]].
  - assert (DG : forall l, forallb (fun k => (0 <=? k) && (k <=? 9))%bool l = true -> are_digits l).
    { intros l H. apply Forall_forall. intros k Hk. rewrite forallb_forall in H. specialize (H k Hk). lia. }
    assert (B0 : is_blank "") by exact I. assert (B1 : is_blank " ") by (split; [now left|exact I]). assert (B2 : is_blank tab) by (split; [now right|exact I]).
    unfold is_line, is_numeral. cbn [tl fst snd nu_sign nu_int nu_frac nu_exp].
    repeat first [assumption | exact I | discriminate | apply Forall_nil | apply Forall_cons | (apply DG; reflexivity) | (left; reflexivity) | (right; reflexivity) | (match goal with |- _ /\ _ => split end) | progress cbn [tl fst snd nu_sign nu_int nu_frac nu_exp]].
  - cbn [map snd]. unfold numeral_value. cbn [nu_sign nu_int nu_frac nu_exp sign_value String.eqb Ascii.eqb Bool.eqb whole_value fold_left fraction_value fold_right].
    cbn [Z.mul Z.add Pos.mul Pos.add powerRZ Pos.to_nat Pos.iter_op pow Pos.succ Nat.add]. repeat match goal with |- _ :: _ = _ :: _ => apply f_equal2 | |- [] = [] => reflexivity end; change (Pos.to_nat 1) with 1%nat; change (Pos.to_nat 2) with 2%nat; cbn [pow]; lra.
Qed.
