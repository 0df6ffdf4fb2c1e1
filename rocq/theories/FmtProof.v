(** Proofs about printed numbers. *)
From Coq Require Import String Ascii Reals Lra ZifyBool.
From Flocq Require Import Core.Raux Core.Zaux.
From Verif Require Import Prelude ZSum RSum TypesModel GridModel GridSpec GridProof MeshProof IndexModel IndexSpec IndexProof BodyModel BodySpec BodyProof BodyUse BodyText BodyProps NumSpec NumProof IterModel FmtModel FmtSpec.
Local Open Scope string_scope.
Local Open Scope list_scope.
Local Open Scope Z_scope.

(** * Digits of an integer *)
Fixpoint digits_of (n : nat) (k : Z) : list Z := match n with O => [] | S n' => digits_of n' (k / 10) ++ [k mod 10] end.
Lemma whole_snoc l d : whole_value (l ++ [d]) = 10 * whole_value l + d.
Proof. unfold whole_value. now rewrite fold_left_app. Qed.
Lemma digits_of_ok n : forall k, 0 <= k < 10 ^ Z.of_nat n -> are_digits (digits_of n k) /\ length (digits_of n k) = n /\ whole_value (digits_of n k) = k.
Proof.
  induction n as [|n IH]; intros k Hk; cbn [digits_of].
  - split; [constructor|]. split; [reflexivity|]. cbn in *. lia.
  - replace (Z.of_nat (S n)) with (Z.of_nat n + 1) in Hk by lia. rewrite Z.pow_add_r in Hk by lia. change (10 ^ 1) with 10 in Hk.
    destruct (IH (k / 10)) as (A & L & W).
    { split; [apply Z.div_pos; lia|]. apply Z.div_lt_upper_bound; lia. }
    pose proof (Z.mod_pos_bound k 10 ltac:(lia)). split; [|split].
    + apply Forall_app. split; [exact A|]. constructor; [lia|constructor].
    + rewrite app_length, L. cbn. lia.
    + rewrite whole_snoc, W. pose proof (Z.div_mod k 10 ltac:(lia)). lia.
Qed.

Lemma whole_bound l : are_digits l -> forall acc, acc * 10 ^ lenZ l <= fold_left (fun a k => 10 * a + k) l acc < (acc + 1) * 10 ^ lenZ l.
Proof.
  induction 1 as [|k l Hk Hl IH]; intros acc; cbn [fold_left].
  - change (lenZ (@nil Z)) with 0. cbn. lia.
  - rewrite lenZ_cons. pose proof (lenZ_nonneg l). rewrite Z.pow_add_r by lia. change (10 ^ 1) with 10. specialize (IH (10 * acc + k)).
    pose proof (Z.pow_pos_nonneg 10 (lenZ l) ltac:(lia) ltac:(lia)). nia.
Qed.
Lemma head_digit p k : 10 ^ Z.of_nat p <= k < 10 ^ Z.of_nat (S p) ->
  exists d f, digits_of (S p) k = d :: f /\ d <> 0 /\ length f = p /\ are_digits (d :: f) /\ whole_value (d :: f) = k.
Proof.
  intros Hk. destruct (digits_of_ok (S p) k) as (A & L & W); [pose proof (Z.pow_pos_nonneg 10 (Z.of_nat p)); lia|].
  destruct (digits_of (S p) k) as [|d f] eqn:E; [discriminate|]. exists d, f. split; [reflexivity|]. cbn [length] in L.
  split; [|split; [lia|split; [exact A|exact W]]]. intros ->. apply Forall_cons_iff in A as [_ A]. pose proof (whole_bound f A 0) as B.
  unfold whole_value in W. cbn [fold_left] in W. change (10 * 0 + 0) with 0 in W. unfold lenZ in B. replace (length f) with p in B by lia. lia.
Qed.

Lemma exp_digits n : forall k, 0 <= k < 10 ^ Z.of_nat n -> exists e, are_digits e /\ whole_value e = k /\ (length e = 2%nat \/ (2 < length e)%nat /\ hd 0 e <> 0).
Proof.
  induction n as [|n IH]; intros k Hk.
  - destruct (digits_of_ok 2 k) as (A & L & W); [cbn in *; lia|]. exists (digits_of 2 k). auto.
  - destruct (Z_lt_dec k (10 ^ Z.of_nat n)) as [|G]; [apply IH; lia|].
    destruct (Nat.le_gt_cases (S n) 2).
    + destruct (digits_of_ok 2 k) as (A & L & W).
      { split; [lia|]. apply Z.lt_le_trans with (10 ^ Z.of_nat (S n)); [lia|]. apply Z.pow_le_mono_r; lia. }
      exists (digits_of 2 k). auto.
    + destruct (head_digit n k) as (d & f & E & Hd & L & A & W); [lia|]. exists (d :: f). split; [exact A|]. split; [exact W|]. right. cbn [length hd]. split; [lia|exact Hd].
Qed.
Lemma exp_exists k : 0 <= k -> exists e, are_digits e /\ whole_value e = k /\ (length e = 2%nat \/ (2 < length e)%nat /\ hd 0 e <> 0).
Proof. intros H. apply (exp_digits (Z.to_nat k)). split; [lia|]. rewrite Z2Nat.id by lia. apply Z.pow_gt_lin_r; lia. Qed.

(** * The text of a real number *)
Lemma p10 z : (0 < powerRZ 10 z)%R.
Proof. apply powerRZ_lt. lra. Qed.
Definition r10 : radix := Build_radix 10 eq_refl.
Lemma bp z : bpow r10 z = powerRZ 10 z.
Proof. now rewrite bpow_powerRZ. Qed.

Lemma scaled x p : (0 < x)%R -> exists k E, 10 ^ Z.of_nat p <= k < 10 ^ Z.of_nat (S p) /\ (Rabs (IZR k * powerRZ 10 (E - Z.of_nat p) - x) <= powerRZ 10 (E - Z.of_nat p) / 2)%R.
Proof.
  intros Hx. destruct (mag r10 x) as [e He]. specialize (He ltac:(lra)). rewrite Rabs_pos_eq, !bp in He by lra.
  set (q := e - 1 - Z.of_nat p). set (y := (x / powerRZ 10 q)%R). pose proof (p10 q) as Hq.
  assert (Hy : (IZR (10 ^ Z.of_nat p) <= y < IZR (10 ^ Z.of_nat (S p)))%R).
  { assert (P : forall n, IZR (10 ^ Z.of_nat n) = powerRZ 10 (Z.of_nat n)) by (intros n; rewrite <- bp; change 10 with (radix_val r10); apply IZR_Zpower; lia).
    rewrite !P. assert (Ey : (y * powerRZ 10 q = x)%R) by (unfold y; field; lra). split.
    - apply Rmult_le_reg_r with (powerRZ 10 q); [exact Hq|]. rewrite Ey, <- powerRZ_add by lra. replace (Z.of_nat p + q) with (e - 1) by (unfold q; lia). lra.
    - apply Rmult_lt_reg_r with (powerRZ 10 q); [exact Hq|]. rewrite Ey, <- powerRZ_add by lra. replace (Z.of_nat (S p) + q) with e by (unfold q; lia). lra. }
  set (k := Zfloor (y + / 2)). pose proof (Zfloor_lb (y + / 2)) as L. pose proof (Zfloor_ub (y + / 2)) as U. fold k in L, U.
  assert (K1 : 10 ^ Z.of_nat p <= k) by (apply Zfloor_lub; lra).
  assert (K2 : k < 10 ^ Z.of_nat (S p) + 1) by (apply lt_IZR; rewrite plus_IZR; lra).
  assert (Err : (Rabs (IZR k * powerRZ 10 q - x) <= powerRZ 10 q / 2)%R).
  { replace (IZR k * powerRZ 10 q - x)%R with ((IZR k - y) * powerRZ 10 q)%R by (unfold y; field; lra). rewrite Rabs_mult, (Rabs_pos_eq (powerRZ 10 q)) by lra.
    assert (Rabs (IZR k - y) <= / 2)%R by (apply Rabs_le; lra). unfold Rdiv. rewrite (Rmult_comm _ (/ 2)). apply Rmult_le_compat_r; lra. }
  destruct (Z.eq_dec k (10 ^ Z.of_nat (S p))) as [Ek|Nk].
  - exists (10 ^ Z.of_nat p), e. split; [split; [lia|apply Z.pow_lt_mono_r; lia]|].
    replace (e - Z.of_nat p) with (1 + q) by (unfold q; lia). rewrite powerRZ_add by lra. change (powerRZ 10 1) with (10 * 1)%R.
    rewrite Ek in Err. replace (Z.of_nat (S p)) with (Z.of_nat p + 1) in Err by lia. rewrite Z.pow_add_r, mult_IZR in Err by lia. change (10 ^ 1) with 10 in Err.
    replace (IZR (10 ^ Z.of_nat p) * (10 * 1 * powerRZ 10 q) - x)%R with (IZR (10 ^ Z.of_nat p) * 10 * powerRZ 10 q - x)%R by ring. lra.
  - exists k, (e - 1). split; [lia|]. exact Err.
Qed.

Lemma fraction_whole d f : (IZR (whole_value (d :: f)) / 10 ^ length f = IZR (whole_value [d]) + fraction_value f)%R.
Proof. unfold whole_value. cbn [fold_left]. apply fraction_of. Qed.
Lemma fraction_pos f : are_digits f -> (0 <= fraction_value f)%R.
Proof. induction 1 as [|k l Hk Hl IH]; cbn [fraction_value fold_right]; [lra|]. fold (fraction_value l). pose proof (IZR_le 0 k ltac:(lia)). lra. Qed.
Lemma pow_z p : (10 ^ p = powerRZ 10 (Z.of_nat p))%R.
Proof. apply pow_powerRZ. Qed.

Definition emark (E : Z) : string := if E <? 0 then "-" else "+".
Lemma emark_ok E : is_sign (emark E) /\ emark E <> "" /\ sign_value (emark E) * Z.abs E = E.
Proof. unfold emark. destruct (Z.ltb_spec E 0); (split; [unfold is_sign; auto|split; [discriminate|cbn [sign_value String.eqb Ascii.eqb Bool.eqb]; lia]]). Qed.

Lemma numeral_of sg d f es e : numeral_value (mkNum sg [d] (Some f) (Some ("e"%char, es, e)))
  = (IZR (sign_value sg) * (IZR (whole_value (d :: f)) * powerRZ 10 (sign_value es * whole_value e - Z.of_nat (length f))))%R.
Proof.
  unfold numeral_value. cbn [nu_sign nu_int nu_frac nu_exp]. rewrite <- fraction_whole. unfold Z.sub. rewrite powerRZ_add, powerRZ_neg', <- pow_z by lra.
  field. apply pow_nonzero. lra.
Qed.

Lemma printed_pos p x : (0 < x)%R -> exists d f es e, are_digits (d :: f) /\ d <> 0 /\ length f = p /\ is_sign es /\ es <> "" /\ are_digits e /\ (length e = 2%nat \/ (2 < length e)%nat /\ hd 0 e <> 0) /\
  (Rabs (IZR (whole_value (d :: f)) * powerRZ 10 (sign_value es * whole_value e - Z.of_nat p) - x) <= powerRZ 10 (sign_value es * whole_value e - Z.of_nat p) / 2)%R.
Proof.
  intros Hx. destruct (scaled x p Hx) as (k & E & Hk & He). destruct (head_digit p k Hk) as (d & f & _ & Hd & L & A & W).
  destruct (exp_exists (Z.abs E) ltac:(lia)) as (e & Ae & We & Le). destruct (emark_ok E) as (S1 & S2 & S3).
  exists d, f, (emark E), e. rewrite W, We, S3. auto 12.
Qed.

Lemma two_digits (e : list Z) : length e = 2%nat \/ (2 < length e)%nat /\ hd 0 e <> 0 -> e <> [].
Proof. destruct e; [intros [H|[H _]]; cbn in H; [discriminate|lia]|discriminate]. Qed.

Lemma printed_exists p x : exists s, printed_e p x s.
Proof.
  destruct (Rtotal_order x 0) as [N|[Z0|P]].
  - destruct (printed_pos p (- x)) as (d & f & es & e & A & Hd & L & S1 & S2 & Ae & Le & Er); [lra|]. apply Forall_cons_iff in A as A'. destruct A' as [A1 A2].
    eexists. exists "-", d, f, es, e. cbv zeta. split; [reflexivity|]. split; [|split; [exact L|]].
    { unfold is_numeral. cbn. pose proof (two_digits e Le). unfold is_sign. repeat split; auto; try discriminate. repeat constructor; lia. }
    split; [reflexivity|]. split; [lra|]. split; [discriminate|]. split; [exact S2|]. split; [exact Le|]. split; [lra|]. intros _. split; [exact Hd|].
    rewrite numeral_of, L. cbn [sign_value String.eqb Ascii.eqb Bool.eqb]. rewrite <- Rabs_Ropp. 
    replace (- (IZR (-1) * (IZR (whole_value (d :: f)) * powerRZ 10 (sign_value es * whole_value e - Z.of_nat p)) - x))%R
      with (IZR (whole_value (d :: f)) * powerRZ 10 (sign_value es * whole_value e - Z.of_nat p) - - x)%R by (simpl (IZR (-1)); ring). exact Er.
  - subst x. eexists. exists "", 0, (repeat 0 p), "+", [0; 0]. cbv zeta. split; [reflexivity|].
    assert (A : are_digits (repeat 0 p)) by (apply Forall_forall; intros y Hy; apply repeat_spec in Hy; lia).
    split; [|split; [apply repeat_length|]].
    { unfold is_numeral, is_sign. cbn. repeat split; auto; try discriminate; repeat constructor; lia. }
    split; [lra|]. split; [reflexivity|]. split; [discriminate|]. split; [discriminate|]. split; [left; reflexivity|]. split; [|lra]. intros _.
    unfold numeral_value. cbn [nu_sign nu_int nu_frac nu_exp]. replace (fraction_value (repeat 0 p)) with 0%R.
    + cbn. ring.
    + clear A. induction p as [|p IH]; cbn [repeat fraction_value fold_right]; [reflexivity|]. fold (fraction_value (repeat 0 p)). rewrite <- IH. lra.
  - destruct (printed_pos p x P) as (d & f & es & e & A & Hd & L & S1 & S2 & Ae & Le & Er). apply Forall_cons_iff in A as A'. destruct A' as [A1 A2].
    eexists. exists "", d, f, es, e. cbv zeta. split; [reflexivity|]. split; [|split; [exact L|]].
    { unfold is_numeral, is_sign. cbn. pose proof (two_digits e Le). repeat split; auto; try discriminate. repeat constructor; lia. }
    split; [lra|]. split; [reflexivity|]. split; [discriminate|]. split; [exact S2|]. split; [exact Le|]. split; [lra|]. intros _. split; [exact Hd|].
    rewrite numeral_of, L. cbn [sign_value String.eqb Ascii.eqb Bool.eqb]. rewrite Rmult_1_l. exact Er.
Qed.

(** * What a printed number is read as *)
Definition text_of (s : string) (y : R) : Prop := exists u, is_numeral u /\ s = numeral_text u /\ numeral_value u = y.

Lemma printed_text p x s : printed_e p x s -> exists y, text_of s y /\ agree p x y.
Proof.
  intros (sg & d & f & es & e & H). cbv zeta in H. destruct H as (-> & Hn & L & Hneg & Hpos & Hsg & _ & _ & Hz & Hr).
  eexists. split; [eexists; split; [exact Hn|split; reflexivity]|]. set (u := mkNum _ _ _ _) in *.
  destruct (Req_dec x 0) as [Z0|N].
  { rewrite (Hz Z0), Z0. unfold agree. rewrite Rminus_0_r, Rabs_R0. split; [unfold Rdiv; lra|]. split; [tauto|]. lra. }
  destruct (Hr N) as [Hd He]. assert (V := numeral_of sg d f es e). fold u in V. set (q := sign_value es * whole_value e - Z.of_nat (length f)) in V. rewrite <- L in He. fold q in He.
  destruct Hn as (Hs & Hi & [Hf _] & _). change (is_sign sg) in Hs. change (are_digits [d]) in Hi. apply Forall_cons_iff in Hi as [Hi _].
  assert (W : (powerRZ 10 (Z.of_nat p) <= IZR (whole_value (d :: f)))%R).
  { pose proof (fraction_whole d f) as F. pose proof (fraction_pos f Hf). unfold whole_value at 2 in F. cbn [fold_left] in F. change (10 * 0) with 0 in F. rewrite Z.add_0_l in F.
    pose proof (IZR_le 1 d ltac:(lia)). pose proof (p10 (Z.of_nat p)) as Hp. rewrite <- L, <- pow_z in *. apply (f_equal (fun r => r * 10 ^ length f)%R) in F. unfold Rdiv in F. rewrite Rmult_assoc, Rinv_l, Rmult_1_r in F by lra.
    rewrite F. nra. }
  pose proof (p10 q) as Hq. pose proof (p10 (Z.of_nat p)) as Hp.
  assert (A : (Rabs (numeral_value u) = IZR (whole_value (d :: f)) * powerRZ 10 q)%R).
  { rewrite V, Rabs_mult, (Rabs_pos_eq (_ * _)) by (apply Rmult_le_pos; lra). rewrite <- abs_IZR. replace (Z.abs (sign_value sg)) with 1 by (destruct Hs as [->|[->| ->]]; reflexivity). ring. }
  assert (Pos : (0 < IZR (whole_value (d :: f)) * powerRZ 10 q)%R) by (apply Rmult_lt_0_compat; lra).
  unfold agree. split; [|].
  - eapply Rle_trans; [exact He|]. rewrite A, pow_z. apply Rmult_le_reg_r with (2 * powerRZ 10 (Z.of_nat p))%R; [lra|].
    set (Wk := IZR (whole_value (d :: f))) in *. set (Q := powerRZ 10 q) in *. set (PP := powerRZ 10 (Z.of_nat p)) in *.
    replace (Wk * Q / (2 * PP) * (2 * PP))%R with (Q * Wk)%R by (field; lra). replace (Q / 2 * (2 * PP))%R with (Q * PP)%R by field. apply Rmult_le_compat_l; lra.
  - assert (SG : ((x < 0 -> numeral_value u < 0) /\ (0 < x -> 0 < numeral_value u))%R).
    { split; intros H.
      - rewrite (Hneg H) in V. cbn [sign_value String.eqb Ascii.eqb Bool.eqb] in V. rewrite V. simpl (IZR (-1)). lra.
      - rewrite (Hpos H) in V. cbn [sign_value String.eqb Ascii.eqb Bool.eqb] in V. rewrite V. lra. }
    destruct (Rtotal_order x 0) as [X|[X|X]]; [pose proof (proj1 SG X)|contradiction|pose proof (proj2 SG X)]; split; split; intros; lra.
Qed.

Lemma printed_d_text n s : printed_d n s -> text_of s (IZR n).
Proof.
  intros (l & A & Hn & W & ->). exists (mkNum (if n <? 0 then "-" else "") l None None). split; [|split].
  - unfold is_numeral, is_sign. cbn. destruct (n <? 0); auto.
  - unfold numeral_text. cbn [nu_sign nu_int nu_frac nu_exp]. assert (E : forall t : string, (t ++ "" ++ "")%string = t) by (induction t as [|c t IH]; cbn; [reflexivity|now f_equal]). now rewrite E.
  - unfold numeral_value. cbn [nu_sign nu_int nu_frac nu_exp]. rewrite W, powerRZ_O, Rplus_0_r, Rmult_1_r, <- mult_IZR. f_equal. destruct (Z.ltb_spec n 0); cbn [sign_value String.eqb Ascii.eqb Bool.eqb]; lia.
Qed.

(** * Rows *)
Definition rest_row (s : string) (ys : list R) : Prop :=
  exists us b, Forall (fun bu => is_blank (fst bu) /\ is_numeral (snd bu)) us /\ Forall (fun bu => fst bu <> "") us /\ is_blank b /\
    s = (line_text us ++ b)%string /\ ys = map (fun bu => numeral_value (snd bu)) us.
Lemma rest_nil b : is_blank b -> rest_row b [].
Proof. intros H. exists [], b. repeat split; auto. Qed.
Lemma rest_cons b s y r ys : is_blank b -> b <> "" -> text_of s y -> rest_row r ys -> rest_row (b ++ s ++ r) (y :: ys).
Proof.
  intros Hb Hn (u & Hu & -> & <-) (us & b' & H1 & H2 & H3 & -> & ->). exists ((b, u) :: us), b'. split; [constructor; auto|]. split; [constructor; auto|]. split; [exact H3|].
  split; [|reflexivity]. cbn [line_text fold_right fst snd]. now rewrite !app_s_assoc.
Qed.
Lemma row_first s y r ys : text_of s y -> rest_row r ys -> is_row (s ++ r) (y :: ys).
Proof.
  intros (u & Hu & -> & <-) (us & b' & H1 & H2 & H3 & -> & ->). exists (("", u) :: us), b'. split; [split; [constructor; auto; split; [exact I|exact Hu]|exact H2]|]. split; [exact H3|].
  split; [|reflexivity]. cbn [line_text fold_right fst snd String.append]. now rewrite !app_s_assoc.
Qed.
Lemma tab_blank : is_blank tab /\ tab <> "".
Proof. split; [split; [now right|exact I]|discriminate]. Qed.

Lemma app_nil_s (s : string) : (s ++ "")%string = s.
Proof. induction s as [|c t IH]; cbn; [reflexivity|now f_equal]. Qed.

Lemma forces_rest pr p line : Forall (fun x => printed_e p x (pr x)) line -> exists ys, rest_row (tab ++ forces_text pr line) ys /\ Forall2 (agree p) line ys.
Proof.
  intros H. destruct tab_blank as [B1 B2]. induction H as [|x l Hx H (ys & IH & IF)].
  - exists []. split; [|constructor]. cbn [forces_text fold_right]. rewrite app_nil_s. now apply rest_nil.
  - destruct (printed_text p x _ Hx) as (y & Ty & Ay). exists (y :: ys). split; [|now constructor]. cbn [forces_text fold_right]. apply rest_cons; auto.
Qed.
Lemma forces_row pr p line : line <> [] -> Forall (fun x => printed_e p x (pr x)) line -> exists ys, is_row (forces_text pr line) ys /\ Forall2 (agree p) line ys.
Proof.
  intros Hn H. destruct line as [|x l]; [contradiction|]. apply Forall_cons_iff in H as [Hx H]. destruct (forces_rest pr p l H) as (ys & R & F). destruct (printed_text p x _ Hx) as (y & Ty & Ay).
  exists (y :: ys). split; [|now constructor]. cbn [forces_text fold_right]. apply row_first; auto.
Qed.
Lemma probe_row pr p t v : printed_e p t (pr t) -> printed_e p v (pr v) -> exists t' v', is_row (probe_text pr (t, v)) [t'; v'] /\ agree p t t' /\ agree p v v'.
Proof.
  intros Ht Hv. destruct tab_blank as [B1 B2]. destruct (printed_text p t _ Ht) as (t' & Tt & At). destruct (printed_text p v _ Hv) as (v' & Tv & Av).
  exists t', v'. split; [|auto]. unfold probe_text. cbn [fst snd]. apply row_first; [exact Tt|]. rewrite <- (app_nil_s (pr v)). apply rest_cons; auto. apply rest_nil. exact I.
Qed.

Lemma concat_more (c a b : string) l : String.concat c (a :: b :: l) = (a ++ c ++ String.concat c (b :: l))%string.
Proof. reflexivity. Qed.
Lemma iterations_rest pd pe rs : rs <> [] -> Forall (fun r => printed_d (fst r) (pd (fst r)) /\ printed_e 6 (snd r) (pe (snd r))) rs ->
  exists vs, rest_row (tab ++ String.concat tab (map (fun r => (pd (fst r) ++ tab ++ pe (snd r))%string) rs)) (concat (map (fun v => [IZR (fst v); snd v]) vs)) /\
    Forall2 (fun r v => fst v = fst r /\ agree 6 (snd r) (snd v)) rs vs.
Proof.
  intros Hn H. destruct tab_blank as [B1 B2]. induction rs as [|[n x] rs IH]; [contradiction|]. apply Forall_cons_iff in H as [[Hd He] H]. cbn [fst snd] in Hd, He.
  destruct (printed_text 6 x _ He) as (y & Ty & Ay). pose proof (printed_d_text n _ Hd) as Tn. destruct rs as [|r rs].
  - exists [(n, y)]. split; [|constructor; [split; [reflexivity|exact Ay]|constructor]]. cbn [map String.concat concat fst snd Datatypes.app].
    apply rest_cons; auto. rewrite <- (app_nil_s (pe x)). apply rest_cons; auto. apply rest_nil. exact I.
  - destruct IH as (vs & R & F); [discriminate|exact H|]. exists ((n, y) :: vs). split; [|constructor; [split; [reflexivity|exact Ay]|exact F]].
    cbn [map concat fst snd Datatypes.app] in *. rewrite concat_more, !app_s_assoc. apply rest_cons; auto. apply rest_cons; auto.
Qed.

(** Rows have one reading. *)
Lemma blank_none b : is_blank b -> cxx_real b = None.
Proof. intros H. unfold cxx_real. rewrite <- (app_nil_s b), blank_skip by exact H. reflexivity. Qed.
Lemma blank_is_gap b : is_blank b -> gap b.
Proof. destruct b as [|c t]; [left; reflexivity|]. intros [H _]. right. exists c, t. auto. Qed.
Lemma row_reads s ys : is_row s ys -> exists b, is_blank b /\ reads cxx s ys b.
Proof.
  intros (us & b & [H T] & Hb & -> & ->). exists b. split; [exact Hb|]. revert T. induction H as [|[b' u] l [Hb' Hu] Hl IH]; intros T; cbn [map line_text fold_right fst snd String.append]; [constructor|].
  cbn [tl] in T. change (fold_right _ "" l) with (line_text l). rewrite !app_s_assoc.
  assert (G : gap (line_text l ++ b)%string).
  { destruct Hl as [|[b2 u2] l' [Hb2 _] _]; [now apply blank_is_gap|]. inversion T; subst. cbn [line_text fold_right fst snd] in *. rewrite !app_s_assoc. apply blank_gap; auto. }
  econstructor; [exact (real_of b' u _ Hb' Hu G)|]. apply IH. destruct l as [|x l']; [constructor|]. now inversion T.
Qed.
Lemma reads_once s ys b : reads cxx s ys b -> is_blank b -> forall ys' b', reads cxx s ys' b' -> is_blank b' -> ys = ys'.
Proof.
  induction 1 as [s|s v s' vs rest E R IH]; intros Hb ys' b' H' Hb'.
  - inversion H'; [reflexivity|]. subst. cbn in *. rewrite blank_none in * by auto. discriminate.
  - inversion H' as [|? v2 s2 ? ? E2 R2]; subst.
    + cbn in *. rewrite blank_none in E by auto. discriminate.
    + rewrite E2 in E. injection E as -> ->. f_equal. eapply IH; eauto.
Qed.
Lemma row_once s ys ys' : is_row s ys -> is_row s ys' -> ys = ys'.
Proof. intros H H'. destruct (row_reads _ _ H) as (b & Hb & R). destruct (row_reads _ _ H') as (b' & Hb' & R'). eapply reads_once; eauto. Qed.

(** * Written bodies *)
Lemma text_reads s y : text_of s y ->
  cxx_real s = Some (y, "") /\ cxx_real (tab ++ s) = Some (y, "") /\
  forall t, cxx_real (s ++ tab ++ t) = Some (y, (tab ++ t)%string) /\ cxx_real (tab ++ s ++ tab ++ t) = Some (y, (tab ++ t)%string).
Proof.
  intros (u & Hu & -> & <-). destruct tab_blank as [B1 B2]. assert (G : forall t, gap (tab ++ t)%string) by (intros t; now apply blank_gap).
  assert (E0 : gap "") by (left; reflexivity). split; [|split; [|intros t; split]].
  - pose proof (real_of "" u "" I Hu E0) as E. rewrite app_nil_s in E. exact E.
  - pose proof (real_of tab u "" B1 Hu E0) as E. rewrite app_nil_s in E. exact E.
  - exact (real_of "" u _ I Hu (G t)).
  - exact (real_of tab u _ B1 Hu (G t)).
Qed.
Lemma written_read pr p row : Forall (fun x => printed_e p x (pr x)) row -> lenZ row = 2 \/ lenZ row = 3 -> exists ys, exact_line cxx (written pr row) ys /\ Forall2 (agree p) row ys.
Proof.
  intros H L. assert (P : forall x, In x row -> exists y, text_of (pr x) y /\ agree p x y) by (intros x Hx; apply printed_text; rewrite Forall_forall in H; auto).
  unfold exact_line. destruct row as [|a [|b [|c [|]]]]; unfold lenZ in L; cbn in L; try lia.
  - destruct (P a ltac:(cbn; auto)) as (a' & Ta & Aa). destruct (P b ltac:(cbn; auto)) as (b' & Tb & Ab). exists [a'; b']. split; [|auto]. cbn [written].
    destruct (text_reads _ _ Ta) as (_ & _ & A). destruct (text_reads _ _ Tb) as (_ & B & _).
    econstructor; [apply A|]. econstructor; [apply B|]. constructor.
  - destruct (P a ltac:(cbn; auto)) as (a' & Ta & Aa). destruct (P b ltac:(cbn; auto)) as (b' & Tb & Ab). destruct (P c ltac:(cbn; auto)) as (c' & Tc & Ac). exists [a'; b'; c']. split; [|auto]. cbn [written].
    destruct (text_reads _ _ Ta) as (_ & _ & A). destruct (text_reads _ _ Tb) as (_ & _ & B). destruct (text_reads _ _ Tc) as (_ & C & _).
    econstructor; [apply A|]. econstructor; [apply B|]. econstructor; [apply C|]. constructor.
Qed.
Lemma Forall2_lenZ {A B} (P : A -> B -> Prop) l l' : Forall2 P l l' -> lenZ l = lenZ l'.
Proof. induction 1; [reflexivity|]. rewrite !lenZ_cons. lia. Qed.
Lemma written_file pr p dim coords tx header : Forall (Forall (fun x => printed_e p x (pr x))) coords -> dim = 2 \/ dim = 3 -> Forall (fun r => lenZ r = dim) coords ->
  lex_int cxx header = Some (lenZ coords, "") -> writeBody pr dim (lenZ coords) coords = Ok tx ->
  exists rows, Forall2 (Forall2 (agree p)) coords rows /\ point_file cxx dim (lenZ coords) rows (mkText (header :: t_lines tx) (t_nl tx)).
Proof.
  intros H Hd HF Hh W. rewrite writeBody_lines in W by auto. injection W as <-.
  assert (R : exists rows, Forall2 (Forall2 (agree p)) coords rows /\ Forall2 (exact_line cxx) (map (written pr) coords) rows /\ Forall (fun r => lenZ r = dim) rows).
  { clear Hh. induction HF as [|row t L HF IH]; [exists []; repeat split; constructor|]. apply Forall_cons_iff in H as [Hr H]. destruct (IH H) as (rows & A & B & C).
    destruct (written_read pr p row Hr) as (ys & E & F); [lia|]. exists (ys :: rows). split; [constructor; auto|]. cbn [map]. split; [constructor; auto|]. constructor; [|exact C].
    rewrite <- (Forall2_lenZ _ _ _ F). exact L. }
  destruct R as (rows & A & B & C). exists rows. split; [exact A|]. exists header, (map (written pr) coords). split; [reflexivity|]. split; [exact Hh|].
  split; [symmetry; exact (Forall2_lenZ _ _ _ A)|]. split; assumption.
Qed.

Lemma numeral_visible u : is_numeral u -> exists c s, numeral_text u = String c s /\ is_space c = false.
Proof.
  intros (Hs & Hi & Hf & _). unfold numeral_text. destruct Hs as [E|[E|E]]; rewrite E; [|eexists _, _; split; reflexivity|eexists _, _; split; reflexivity].
  destruct (nu_int u) as [|k l] eqn:El.
  - destruct (nu_frac u) as [f|]; [|contradiction]. eexists _, _. split; reflexivity.
  - apply Forall_cons_iff in Hi as [Hk _]. eexists _, _. split; [reflexivity|]. apply (digit_char_ok k Hk).
Qed.
Lemma printed_visible p x s : printed_e p x s -> exists c t, s = String c t /\ is_space c = false.
Proof. intros H. destruct (printed_text p x _ H) as (y & (u & Hu & -> & _) & _). now apply numeral_visible. Qed.
Definition visible_of (pr : R -> string) (x : R) : string := match pr x with String c t => if is_space c then "0" else String c t | "" => "0" end.
Lemma visible_starts pr : starts_visible (visible_of pr).
Proof. intros x. unfold visible_of. destruct (pr x) as [|c t]; [eexists _, _; split; reflexivity|]. destruct (is_space c) eqn:E; [eexists _, _; split; reflexivity|]. exists c, t. auto. Qed.
Lemma written_visible pr p row : Forall (fun x => printed_e p x (pr x)) row -> written (visible_of pr) row = written pr row.
Proof.
  intros H. assert (E : forall x, In x row -> visible_of pr x = pr x).
  { intros x Hx. rewrite Forall_forall in H. destruct (printed_visible p x _ (H x Hx)) as (c & t & E & Hc). unfold visible_of. now rewrite E, Hc. }
  destruct row as [|a [|b [|c [|]]]]; cbn [written]; rewrite ?E by (cbn; auto); reflexivity.
Qed.
Lemma printed_not_readable pr p dim coords tx : Forall (Forall (fun x => printed_e p x (pr x))) coords -> dim = 2 \/ dim = 3 -> coords <> [] ->
  Forall (fun r => lenZ r = dim) coords -> writeBody pr dim (lenZ coords) coords = Ok tx -> readLagrangianPoints cxx (Some tx) = Err PETSC_ERR_FILE_READ.
Proof.
  intros H Hd Hn HF W. apply (written_not_readable (visible_of pr) dim coords tx Hd Hn HF (visible_starts pr)). rewrite writeBody_lines in * by auto. rewrite <- W. do 2 f_equal.
  clear W Hn HF. induction H as [|row t Hr H IH]; [reflexivity|]. cbn [map]. rewrite (written_visible pr p) by exact Hr. now rewrite IH.
Qed.

(** * Times *)
Lemma times_apart dt i j ti tj : (0 < dt)%R -> 0 <= i < j -> j <= 10 ^ 8 -> agree 8 (IZR i * dt) ti -> agree 8 (IZR j * dt) tj -> (ti < tj)%R.
Proof.
  intros Hdt Hi Hj (A & _ & _) (B & Bz & Bn). pose proof (IZR_le 0 i ltac:(lia)) as I0. assert (IJ : (IZR i + 1 <= IZR j)%R) by (rewrite <- plus_IZR; apply IZR_le; lia).
  pose proof (IZR_le j (10 ^ 8) Hj) as J8. change (10 ^ 8) with 100000000 in J8. cbn [pow] in A, B.
  set (x := (IZR i * dt)%R) in *. set (z := (IZR j * dt)%R) in *.
  assert (X0 : (0 <= x)%R) by (apply Rmult_le_pos; lra). assert (XZ : (x + dt <= z)%R) by (unfold x, z; nra). assert (Z8 : (z <= 100000000 * dt)%R) by (unfold z; nra).
  assert (T1 : (ti <= x + Rabs ti / 200000000)%R) by (pose proof (Rle_abs (ti - x)); lra).
  assert (T2 : (z - Rabs tj / 200000000 <= tj)%R) by (pose proof (Rle_abs (-(tj - z))) as R; rewrite Rabs_Ropp in R; lra).
  unfold Rabs in T1, T2. destruct (Rcase_abs ti), (Rcase_abs tj); lra.
Qed.
