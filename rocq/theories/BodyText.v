(** Proofs about the number syntax and about written body files. *)
From Coq Require Import String Ascii Reals Lra.
From Verif Require Import Prelude ZSum RSum TypesModel GridModel GridSpec GridProof MeshProof IndexModel IndexSpec IndexProof BodyModel BodySpec BodyProof BodyUse.
Local Open Scope string_scope.
Local Open Scope list_scope.
Local Open Scope Z_scope.

Definition slen (s : string) : Z := Z.of_nat (String.length s).

Lemma digits_len s : forall acc cnt v n rest, digits acc cnt s = (v, n, rest) ->
  cnt <= n /\ slen rest + (n - cnt) = slen s.
Proof.
  unfold slen. induction s as [|c t IH]; intros acc cnt v n rest H; cbn [digits] in H.
  - injection H as <- <- <-. cbn. lia.
  - destruct (is_digit c).
    + apply IH in H. cbn [String.length]. lia.
    + injection H as <- <- <-. lia.
Qed.

Lemma sign_len s sg t : sign s = (sg, t) -> slen t <= slen s.
Proof.
  unfold slen. destruct s as [|c u]; cbn [sign]; intros H.
  - injection H as <- <-. lia.
  - destruct (Ascii.eqb c "-"); [|destruct (Ascii.eqb c "+")]; injection H as <- <-; cbn [String.length]; lia.
Qed.

Lemma skip_len s : slen (skip_ws s) <= slen s.
Proof. unfold slen. induction s as [|c t IH]; cbn [skip_ws]; [lia|]. destruct (is_space c); cbn [String.length] in *; lia. Qed.

Lemma cxx_proper : proper cxx.
Proof.
  split; [|reflexivity]. intros s v rest. unfold cxx, lex_real, cxx_real.
  destruct (sign (skip_ws s)) as [sg s1] eqn:Es. apply sign_len in Es. pose proof (skip_len s) as Sk.
  destruct (digits 0 0 s1) as [[v1 n1] s2] eqn:E1. apply digits_len in E1 as [N1 L1].
  destruct (match s2 with "" => (v1, 0, "") | String c t => if Ascii.eqb c "." then digits v1 0 t else (v1, 0, s2) end) as [[v' n'] s3] eqn:E2.
  assert (A : 0 <= n' /\ slen s3 + n' <= slen s2).
  { destruct s2 as [|c t]; [injection E2 as <- <- <-; lia|]. destruct (Ascii.eqb c ".").
    - apply digits_len in E2 as [N2 L2]. unfold slen in *. cbn [String.length]. lia.
    - injection E2 as <- <- <-. lia. }
  destruct (Z.eqb_spec (n1 + n') 0); [discriminate|].
  destruct s3 as [|c t].
  - intros H. injection H as <- <-. unfold slen in *. lia.
  - destruct (Ascii.eqb c "e" || Ascii.eqb c "E").
    + destruct (sign t) as [se s4] eqn:E4. apply sign_len in E4.
      destruct (digits 0 0 s4) as [[e ne] s5] eqn:E5. apply digits_len in E5 as [N5 L5].
      destruct (ne =? 0); [discriminate|]. intros H. injection H as <- <-. unfold slen in *. cbn [String.length] in *. lia.
    + intros H. injection H as <- <-. unfold slen in *. lia.
Qed.

Definition has_tab (s : string) : Prop := exists a b, s = (a ++ tab ++ b)%string.
Definition tabc : ascii := ascii_of_nat 9.

Lemma has_tab_tail c t : has_tab (String c t) -> c <> tabc -> has_tab t.
Proof.
  intros (a & b & E) Hc. destruct a as [|x a]; cbn in E.
  - injection E as E1 _. exfalso. apply Hc. rewrite E1. reflexivity.
  - injection E as -> ->. exists a, b. reflexivity.
Qed.

Lemma has_tab_nonempty s : has_tab s -> s <> "".
Proof. intros (a & b & ->). destruct a; discriminate. Qed.

Lemma digits_tab s : forall acc cnt v n rest, digits acc cnt s = (v, n, rest) -> has_tab s -> has_tab rest.
Proof.
  induction s as [|c t IH]; intros acc cnt v n rest H T; cbn [digits] in H.
  - apply has_tab_nonempty in T. congruence.
  - destruct (is_digit c) eqn:D.
    + eapply IH; eauto. eapply has_tab_tail; eauto. intros ->. discriminate.
    + injection H as <- <- <-. exact T.
Qed.

Lemma sign_tab s sg t : sign s = (sg, t) -> has_tab s -> has_tab t.
Proof.
  intros H T. destruct s as [|c u]; cbn [sign] in H.
  - apply has_tab_nonempty in T. congruence.
  - destruct (Ascii.eqb_spec c "-") as [->|]; [injection H as <- <-; eapply has_tab_tail; eauto; discriminate|].
    destruct (Ascii.eqb_spec c "+") as [->|]; [injection H as <- <-; eapply has_tab_tail; eauto; discriminate|].
    injection H as <- <-. exact T.
Qed.

Lemma int_before_tab c s : is_space c = false -> has_tab (String c s) ->
  forall v rest, cxx_int (String c s) = Some (v, rest) -> rest <> "".
Proof.
  intros Hc T v rest. unfold cxx_int. cbn [skip_ws]. rewrite Hc.
  destruct (sign (String c s)) as [sg s1] eqn:Es. pose proof (sign_tab _ _ _ Es T) as T1.
  destruct (digits 0 0 s1) as [[v1 n1] s2] eqn:E1. pose proof (digits_tab _ _ _ _ _ _ E1 T1) as T2.
  destruct (n1 =? 0); [discriminate|]. intros H. injection H as <- <-. now apply has_tab_nonempty.
Qed.

(** Lines written by writeBody. *)
Definition written (pr : R -> string) (row : list R) : string :=
  match row with
  | [x; y] => (pr x ++ tab ++ pr y)%string
  | [x; y; z] => (pr x ++ tab ++ pr y ++ tab ++ pr z)%string
  | _ => ""
  end.

Lemma map_nth_zrange {A B} (g : A -> B) (l : list A) (h : Z -> res B) :
  (forall k x, nthZ l k = Some x -> h k = Ok (g x)) -> mapM h (zrange 0 (lenZ l)) = Ok (map g l).
Proof.
  revert h. induction l as [|a t IH]; intros h H.
  - reflexivity.
  - rewrite lenZ_cons. pose proof (lenZ_nonneg t). rewrite zrange_cons by lia. cbn [mapM map].
    rewrite (H 0 a (nthZ_cons_0 _ _)). cbn [bind].
    assert (E : mapM h (zrange (0 + 1) (1 + lenZ t)) = Ok (map g t)).
    { rewrite <- (IH (fun k => h (k + 1))).
      - replace (1 + lenZ t) with (lenZ t + 1) by lia.
        assert (G : forall l', mapM h (map (fun k => k + 1) l') = mapM (fun k => h (k + 1)) l').
        { induction l' as [|y u IHu]; cbn [mapM map]; [reflexivity|]. destruct (h (y + 1)); cbn [bind]; auto. now rewrite IHu. }
        rewrite <- G. f_equal. rewrite <- (map_zrange_shift (fun k => k)). now rewrite map_id.
      - intros k x Hk. apply H. pose proof (nthZ_Some_range _ _ _ Hk). rewrite nthZ_cons_pos by lia.
        now replace (k + 1 - 1) with k by lia. }
    rewrite E. reflexivity.
Qed.

Lemma writeBody_lines pr dim coords : dim = 2 \/ dim = 3 -> Forall (fun r => lenZ r = dim) coords ->
  writeBody pr dim (lenZ coords) coords = Ok (mkText (map (written pr) coords) true).
Proof.
  intros Hd HF. unfold writeBody.
  assert (Hrow : forall k row, nthZ coords k = Some row -> lenZ row = dim).
  { intros k row E. rewrite Forall_forall in HF. apply HF. eapply nthZ_In; eauto. }
  destruct Hd as [-> | ->]; cbn [Z.eqb Pos.eqb].
  - rewrite (map_nth_zrange (written pr)); [reflexivity|]. intros k row E. specialize (Hrow k row E). unfold rd at 1. rewrite E. cbn [bind].
    destruct row as [|x [|y [|]]]; unfold lenZ in Hrow; cbn in Hrow; try lia. reflexivity.
  - rewrite (map_nth_zrange (written pr)); [reflexivity|]. intros k row E. specialize (Hrow k row E). unfold rd at 1. rewrite E. cbn [bind].
    destruct row as [|x [|y [|z [|]]]]; unfold lenZ in Hrow; cbn in Hrow; try lia. reflexivity.
Qed.

Definition starts_visible (pr : R -> string) : Prop := forall x, exists c s, pr x = String c s /\ is_space c = false.

Lemma written_not_readable pr dim coords tx : dim = 2 \/ dim = 3 -> coords <> [] -> Forall (fun r => lenZ r = dim) coords ->
  starts_visible pr -> writeBody pr dim (lenZ coords) coords = Ok tx ->
  readLagrangianPoints cxx (Some tx) = Err PETSC_ERR_FILE_READ.
Proof.
  intros Hd Hne HF Hv W. rewrite writeBody_lines in W by auto. injection W as <-.
  destruct coords as [|row t]; [congruence|]. apply Forall_cons_iff in HF as [HL _].
  unfold readLagrangianPoints. cbn [t_lines map].
  assert (V : exists c s, written pr row = String c s /\ is_space c = false /\ has_tab (String c s)).
  { destruct row as [|x [|y [|z [|]]]]; unfold lenZ in HL; cbn in HL; try lia.
    - destruct (Hv x) as (c & s & E & Hc). exists c, (s ++ tab ++ pr y)%string. cbn [written]. rewrite E. split; [reflexivity|].
      split; [exact Hc|]. exists (String c s), (pr y). reflexivity.
    - destruct (Hv x) as (c & s & E & Hc). exists c, (s ++ tab ++ pr y ++ tab ++ pr z)%string. cbn [written]. rewrite E. split; [reflexivity|].
      split; [exact Hc|]. exists (String c s), (pr y ++ tab ++ pr z)%string. reflexivity. }
  destruct V as (c & s & -> & Hc & T). cbn [lex_int cxx].
  destruct (cxx_int (String c s)) as [[v rest]|] eqn:E; [|reflexivity].
  apply (int_before_tab c s Hc T) in E. destruct (String.eqb_spec rest ""); [congruence|reflexivity].
Qed.

Lemma written_with_header lx pr dim coords tx header : dim = 2 \/ dim = 3 -> Forall (fun r => lenZ r = dim) coords ->
  Forall (Forall (prints lx pr)) coords -> lex_int lx header = Some (lenZ coords, "") ->
  writeBody pr dim (lenZ coords) coords = Ok tx ->
  point_file lx dim (lenZ coords) coords (mkText (header :: t_lines tx) (t_nl tx)).
Proof.
  intros Hd HF HP Hh W. rewrite writeBody_lines in W by auto. injection W as <-.
  exists header, (map (written pr) coords). split; [reflexivity|]. split; [exact Hh|]. split; [reflexivity|]. split; [|exact HF].
  clear Hh. induction coords as [|row t IH]; cbn [map]; [constructor|].
  apply Forall_cons_iff in HF as [HL HF]. apply Forall_cons_iff in HP as [P HP]. constructor; [|now apply IH].
  unfold exact_line. destruct row as [|x [|y [|z [|]]]]; unfold lenZ in HL; cbn in HL; try lia.
  - apply Forall_cons_iff in P as [[Px Px'] P]. apply Forall_cons_iff in P as [[Py Py'] P].
    econstructor; [apply (Px' (pr y))|]. econstructor; [apply (Py' "")|]. constructor.
  - apply Forall_cons_iff in P as [[Px Px'] P]. apply Forall_cons_iff in P as [[Py Py'] P]. apply Forall_cons_iff in P as [[Pz Pz'] P].
    econstructor; [apply (Px' (pr y ++ tab ++ pr z)%string)|]. econstructor; [apply (Py' (pr z))|]. econstructor; [apply (Pz' "")|]. constructor.
Qed.
