(** Specification vocabulary: decimal numerals and their values. *)
From Coq Require Import String Ascii Reals.
From Verif Require Import Prelude ZSum RSum.
Local Open Scope string_scope.
Local Open Scope list_scope.

(** Digits, most significant first, and their characters. *)
Definition are_digits (l : list Z) : Prop := Forall (fun k => (0 <= k <= 9)%Z) l.
Definition digit_char (k : Z) : ascii := ascii_of_nat (48 + Z.to_nat k).
Definition digit_text (l : list Z) : string := fold_right (fun k s => String (digit_char k) s) "" l.
(** Their value before the decimal point, and after it. *)
Definition whole_value (l : list Z) : Z := fold_left (fun a k => (10 * a + k)%Z) l 0%Z.
Definition fraction_value (l : list Z) : R := fold_right (fun k r => ((IZR k + r) / 10)%R) 0%R l.

(** An optional sign. *)
Definition is_sign (s : string) : Prop := s = "" \/ s = "+" \/ s = "-".
Definition sign_value (s : string) : Z := if String.eqb s "-" then (-1)%Z else 1%Z.

(** A decimal numeral: sign, digits, digits after a point, exponent. *)
Record numeral := mkNum { nu_sign : string; nu_int : list Z; nu_frac : option (list Z); nu_exp : option (ascii * string * list Z) }.
Definition is_numeral (u : numeral) : Prop :=
  is_sign (nu_sign u) /\ are_digits (nu_int u) /\
  match nu_frac u with Some f => are_digits f /\ nu_int u ++ f <> [] | None => nu_int u <> [] end /\
  match nu_exp u with Some (c, sg, e) => (c = "e"%char \/ c = "E"%char) /\ is_sign sg /\ are_digits e /\ e <> [] | None => True end.
Definition numeral_text (u : numeral) : string :=
  (nu_sign u ++ digit_text (nu_int u) ++ match nu_frac u with Some f => "." ++ digit_text f | None => "" end
     ++ match nu_exp u with Some (c, sg, e) => String c (sg ++ digit_text e) | None => "" end)%string.
Definition numeral_value (u : numeral) : R :=
  (IZR (sign_value (nu_sign u)) * (IZR (whole_value (nu_int u)) + match nu_frac u with Some f => fraction_value f | None => 0 end)
     * powerRZ 10 (match nu_exp u with Some (_, sg, e) => sign_value sg * whole_value e | None => 0 end))%R.

(** Blanks. *)
Fixpoint is_blank (s : string) : Prop :=
  match s with "" => True | String c t => (c = " "%char \/ c = ascii_of_nat 9) /\ is_blank t end.
(** A line of numerals: each is preceded by blanks, at least one except for the
    first. *)
Definition line_text (l : list (string * numeral)) : string := fold_right (fun bu s => (fst bu ++ numeral_text (snd bu) ++ s)%string) "" l.
Definition is_line (l : list (string * numeral)) : Prop :=
  Forall (fun bu => is_blank (fst bu) /\ is_numeral (snd bu)) l /\ Forall (fun bu => fst bu <> "") (tl l).
