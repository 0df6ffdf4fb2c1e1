(** Specification vocabulary for file names. *)
From Coq Require Import String Ascii.
From Verif Require Import Prelude.
Local Open Scope Z_scope.

(** Value of a string of decimal digits. *)
Fixpoint val (s : string) (a : Z) : Z :=
  match s with EmptyString => a | String c t => val t (10 * a + (Z.of_nat (nat_of_ascii c) - 48)) end.
(** Lexicographic order of strings by character code. *)
Fixpoint str_lt (s t : string) : Prop :=
  match s, t with
  | EmptyString, String _ _ => True
  | String a s', String b t' => (nat_of_ascii a < nat_of_ascii b)%nat \/ a = b /\ str_lt s' t'
  | _, EmptyString => False
  end.
