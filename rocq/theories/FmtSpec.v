(** Specification vocabulary: numbers printed by the C library and the rows of
    numbers of a text. *)
From Coq Require Import String Ascii Reals.
From Verif Require Import Prelude ZSum RSum NumSpec.
Local Open Scope string_scope.
Local Open Scope list_scope.
Local Open Scope R_scope.

(** printf's "%.<p>e" (ISO C, 7.21.6.1): a sign if the number is negative, one
    digit, not zero unless the number is, the point, [p] digits, the letter e,
    the sign of the exponent and its digits, at least two and no more than
    needed. The decimal is a nearest one of that precision. Zero may come with
    its sign. A minimal width of ten does not matter: the text is longer. *)
Definition printed_e (p : nat) (x : R) (s : string) : Prop :=
  exists sg d f es e,
    let u := mkNum sg [d] (Some f) (Some ("e"%char, es, e)) in
    s = numeral_text u /\ is_numeral u /\ length f = p /\
    (x < 0 -> sg = "-") /\ (0 < x -> sg = "") /\ sg <> "+" /\
    es <> "" /\ (length e = 2%nat \/ (2 < length e)%nat /\ hd 0%Z e <> 0%Z) /\
    (x = 0 -> numeral_value u = 0) /\
    (x <> 0 -> d <> 0%Z /\ Rabs (numeral_value u - x) <= powerRZ 10 (sign_value es * whole_value e - Z.of_nat p) / 2).

(** printf's "%d". *)
Definition printed_d (n : Z) (s : string) : Prop :=
  exists l, are_digits l /\ l <> [] /\ whole_value l = Z.abs n /\ s = ((if (n <? 0)%Z then "-" else "") ++ digit_text l)%string.

(** [y] agrees with [x] to [p + 1] decimal digits: the difference is at most half
    a unit of the last one; zero and the sign are kept. *)
Definition agree (p : nat) (x y : R) : Prop :=
  Rabs (y - x) <= Rabs y / (2 * 10 ^ p) /\ (x = 0 <-> y = 0) /\ (x < 0 <-> y < 0).

(** A text that is a row of numbers, with blanks between and possibly after. *)
Definition is_row (s : string) (ys : list R) : Prop :=
  exists us b, is_line us /\ is_blank b /\ s = (line_text us ++ b)%string /\ ys = map (fun bu => numeral_value (snd bu)) us.
