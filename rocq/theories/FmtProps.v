(** C89: the numbers in the text files. *)
From Coq Require Import String Ascii Reals Lra ZifyBool.
From Verif Require Import Prelude ZSum RSum TypesModel BodyModel BodySpec BodyText BodyProps NumSpec NumProof IterModel FmtModel FmtSpec FmtProof.
Local Open Scope string_scope.
Local Open Scope list_scope.
Local Open Scope Z_scope.

(** C89: every real number has a text of the printed form. *)
Theorem every_number_prints : forall p x, exists s, printed_e p x s.
Proof. exact printed_exists. Qed.
Print Assumptions every_number_prints.

(** C89: a row of numbers has one reading, so that the theorems below speak of
    the numbers a reader finds. *)
Theorem rows_read_once : forall s ys ys', is_row s ys -> is_row s ys' -> ys = ys'.
Proof. exact row_once. Qed.
Print Assumptions rows_read_once.

(** C89: each line of the forces files is a row with the time and the forces, in
    this order, to nine decimal digits. *)
Theorem forces_columns : forall pr lines, Forall (fun l => l <> [] /\ Forall (fun x => printed_e 8 x (pr x)) l) lines ->
  Forall (fun l => exists ys, is_row (forces_text pr l) ys /\ Forall2 (agree 8) l ys) lines.
Proof. intros pr lines H. eapply Forall_impl; [|exact H]. cbv beta. intros l [Hl Hp]. now apply forces_row. Qed.
Print Assumptions forces_columns.

(** C89: each line of a point probe is a row of two numbers, the time and the
    value, to nine decimal digits. *)
Theorem probe_columns : forall pr t v, printed_e 8 t (pr t) -> printed_e 8 v (pr v) ->
  exists t' v', is_row (probe_text pr (t, v)) [t'; v'] /\ agree 8 t t' /\ agree 8 v v'.
Proof. intros pr t v Ht Hv. now apply probe_row. Qed.
Print Assumptions probe_columns.

(** C89: each line of the iterations file is a row with the step and, for each
    solver in turn, the iterations, exactly, and the residual to seven digits. *)
Theorem iterations_columns : forall pd pe l, printed_d (l_step l) (pd (l_step l)) ->
  Forall (fun r => printed_d (fst r) (pd (fst r)) /\ printed_e 6 (snd r) (pe (snd r))) (l_reports l) -> l_reports l <> [] ->
  exists vs, is_row (iterations_text pd pe l) (IZR (l_step l) :: concat (map (fun v => [IZR (fst v); snd v]) vs)) /\
    Forall2 (fun r v => fst v = fst r /\ agree 6 (snd r) (snd v)) (l_reports l) vs.
Proof.
  intros pd pe l Hd He Hn. destruct (iterations_rest pd pe (l_reports l) Hn He) as (vs & R & F). exists vs. split; [|exact F].
  unfold iterations_text. apply row_first; [now apply printed_d_text|exact R].
Qed.
Print Assumptions iterations_columns.

(** C89: the times of a run from 0 with a fixed time step stay in increasing
    order in the file, for the first hundred million steps. *)
Theorem times_in_order : forall dt i j si sj, (0 < dt)%R -> 0 <= i < j -> j <= 10 ^ 8 ->
  printed_e 8 (IZR i * dt) si -> printed_e 8 (IZR j * dt) sj ->
  forall ti tj, is_row si [ti] -> is_row sj [tj] -> (ti < tj)%R.
Proof.
  intros dt i j si sj Hdt Hi Hj Hsi Hsj ti tj Ri Rj.
  assert (G : forall x s y, printed_e 8 x s -> is_row s [y] -> agree 8 x y).
  { intros x s y Hp R. destruct (printed_text 8 x _ Hp) as (y' & T & A). pose proof (row_first _ _ _ _ T (rest_nil "" Logic.I)) as R'. rewrite app_nil_s in R'.
    pose proof (row_once _ _ _ R R') as E. injection E as ->. exact A. }
  exact (times_apart dt i j ti tj Hdt Hi Hj (G _ _ _ Hsi Ri) (G _ _ _ Hsj Rj)).
Qed.
Print Assumptions times_in_order.

(** C89, violated beyond that: successive times of a run with a time step of
    10^-6 are printed by the same text once the time is 1000. *)
Theorem times_coincide_refuted : exists s, printed_e 8 1000 s /\ printed_e 8 (1000 + / 1000000) s.
Proof.
  exists "1.00000000e+03". set (u := mkNum "" [1] (Some [0; 0; 0; 0; 0; 0; 0; 0]) (Some ("e"%char, "+", [0; 3]))).
  assert (N : is_numeral u) by (unfold u, is_numeral, is_sign, are_digits; cbn; repeat split; auto; try discriminate; repeat constructor; lia).
  assert (V : numeral_value u = 1000%R) by (unfold u, numeral_value; cbn [nu_sign nu_int nu_frac nu_exp]; change (powerRZ 10 (sign_value "+" * whole_value [0; 3])) with (10 ^ 3)%R;
    change (sign_value "") with 1; change (whole_value [1]) with 1; cbn [fraction_value fold_right pow]; lra).
  assert (Q : powerRZ 10 (sign_value "+" * whole_value [0; 3] - Z.of_nat 8) = (/ 100000)%R).
  { change (sign_value "+" * whole_value [0; 3] - Z.of_nat 8) with (-5). change (powerRZ 10 (-5)) with (/ 10 ^ 5)%R. cbn [pow]. f_equal. lra. }
  assert (G : forall x, (0 < x)%R -> (Rabs (1000 - x) <= / 100000 / 2)%R -> printed_e 8 x "1.00000000e+03").
  { intros x Hx Hd. exists "", 1, [0; 0; 0; 0; 0; 0; 0; 0], "+", [0; 3]. cbv zeta. fold u. rewrite V, Q. split; [reflexivity|]. split; [exact N|]. split; [reflexivity|].
    split; [lra|]. split; [reflexivity|]. split; [discriminate|]. split; [discriminate|]. split; [left; reflexivity|]. split; [lra|]. intros _. split; [discriminate|exact Hd]. }
  split; apply G; try lra; apply Rabs_le; lra.
Qed.
Print Assumptions times_coincide_refuted.

(** C46 and C89: a body that is written and read again with the count in front
    has the same points to nine digits, whatever the coordinates. *)
Theorem body_written_and_read : forall pr dim coords tx header, Forall (Forall (fun x => printed_e 8 x (pr x))) coords -> dim = 2 \/ dim = 3 -> coords <> [] ->
  Forall (fun r => lenZ r = dim) coords -> lex_int cxx header = Some (lenZ coords, "") -> writeBody pr dim (lenZ coords) coords = Ok tx ->
  exists rows, readLagrangianPoints cxx (Some (mkText (header :: t_lines tx) (t_nl tx))) = Ok (lenZ coords, rows) /\ Forall2 (Forall2 (agree 8)) coords rows.
Proof.
  intros pr dim coords tx header H Hd Hn HF Hh W. destruct (written_file pr 8 dim coords tx header H Hd HF Hh W) as (rows & A & F).
  exists rows. split; [|exact A]. pose proof (nonempty_lenZ coords Hn). apply body_file_read with (dim := dim); [apply cxx_syntax_proper|lia|lia|exact F].
Qed.
Print Assumptions body_written_and_read.

(** C46, violated: without the count, the file that writeBody prints is never
    accepted. *)
Theorem body_printed_refuted : forall pr dim coords tx, Forall (Forall (fun x => printed_e 8 x (pr x))) coords -> dim = 2 \/ dim = 3 -> coords <> [] ->
  Forall (fun r => lenZ r = dim) coords -> writeBody pr dim (lenZ coords) coords = Ok tx ->
  readLagrangianPoints cxx (Some tx) = Err PETSC_ERR_FILE_READ.
Proof. intros pr dim coords tx H Hd Hn HF W. exact (printed_not_readable pr 8 dim coords tx H Hd Hn HF W). Qed.
Print Assumptions body_printed_refuted.

(** A printed number, its reading and a row. *)
Example printed_case : printed_e 8 (-/3) "-3.33333333e-01" /\ printed_d (-12) "-12" /\
  lex_real cxx "-3.33333333e-01" = Some (numeral_value (mkNum "-" [3] (Some [3; 3; 3; 3; 3; 3; 3; 3]) (Some ("e"%char, "-", [0; 1]))), "") /\
  (let pr := fun _ : R => "-3.33333333e-01" in
   Forall (fun l => l <> [] /\ Forall (fun x => printed_e 8 x (pr x)) l) [[-/3; -/3]; [-/3]]%R /\
   forces_text pr [-/3; -/3]%R = ("-3.33333333e-01" ++ tab ++ "-3.33333333e-01" ++ tab)%string).
Proof.
  set (u := mkNum "-" [3] (Some [3; 3; 3; 3; 3; 3; 3; 3]) (Some ("e"%char, "-", [0; 1]))).
  assert (N : is_numeral u) by (unfold u, is_numeral, is_sign, are_digits; cbn; repeat split; auto; try discriminate; repeat constructor; lia).
  assert (P : printed_e 8 (-/3) "-3.33333333e-01").
  { exists "-", 3, [3; 3; 3; 3; 3; 3; 3; 3], "-", [0; 1]. cbv zeta. fold u. split; [reflexivity|]. split; [exact N|]. split; [reflexivity|].
    split; [reflexivity|]. split; [lra|]. split; [discriminate|]. split; [discriminate|]. split; [left; reflexivity|]. split; [lra|]. intros _. split; [discriminate|].
    change (sign_value "-" * whole_value [0; 1] - Z.of_nat 8) with (-9).
    assert (V : numeral_value u = (-0.333333333)%R) by (unfold u, numeral_value; cbn [nu_sign nu_int nu_frac nu_exp]; change (powerRZ 10 (sign_value "-" * whole_value [0; 1])) with (/ 10 ^ 1)%R;
      change (sign_value "-") with (-1); change (whole_value [3]) with 3; cbn [fraction_value fold_right pow]; lra). rewrite V.
    assert (Q : powerRZ 10 (-9) = (/ 1000000000)%R) by (change (powerRZ 10 (-9)) with (/ 10 ^ 9)%R; cbn [pow]; f_equal; lra). rewrite Q. apply Rabs_le. lra. }
  split; [exact P|]. split; [|split; [|split; [|reflexivity]]].
  - exists [1; 2]. split; [repeat constructor; lia|]. split; [discriminate|]. split; reflexivity.
  - exact (proj1 (text_reads "-3.33333333e-01" (numeral_value u) (ex_intro _ u (conj N (conj eq_refl eq_refl))))).
  - constructor; [split; [discriminate|constructor; [exact P|constructor; [exact P|constructor]]]|]. constructor; [split; [discriminate|constructor; [exact P|constructor]]|constructor].
Qed.
