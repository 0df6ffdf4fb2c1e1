(** Model of the file names the programs build from step numbers, and of the
    step loop of the XDMF tool. *)
From Coq Require Import String Ascii.
From Verif Require Import Prelude.
Local Open Scope Z_scope.

(** Character of one decimal digit. *)
Definition digit (d : Z) : ascii := ascii_of_nat (48 + Z.to_nat d).
(** Decimal digits of a non-negative integer, most significant first. *)
Fixpoint digits_aux (fuel : nat) (n : Z) (acc : string) : string :=
  match fuel with
  | O => acc
  | S f => let acc' := String (digit (n mod 10)) acc in if n / 10 =? 0 then acc' else digits_aux f (n / 10) acc'
  end.
Definition decimal (n : Z) : string := digits_aux (S (Z.to_nat (Z.log2 n))) n "".
(** std::to_string and operator<< on an integer. *)
Definition to_string (n : Z) : string := if n <? 0 then String.append "-" (decimal (- n)) else decimal n.
Fixpoint zeros (k : nat) : string := match k with O => ""%string | S k' => String "0"%char (zeros k') end.
(** std::setfill('0') << std::setw(7): pad on the left up to 7 characters
    (the sign, if any, comes after the zeros). *)
Definition pad7 (s : string) : string := String.append (zeros (7 - String.length s)) s.
(** applications/navierstokes/navierstokes.cpp:217, 228, 282, 296;
    applications/vorticity/main.cpp:142-143;
    applications/rigidkinematics/rigidkinematics.cpp:170. *)
Definition step_name (n : Z) : string := pad7 (to_string n).
(** printf "%07d" (applications/createxdmf/main.cpp:230, 250): the sign comes
    before the zeros. *)
Definition printf07 (n : Z) : string :=
  if n <? 0 then String.append "-" (String.append (zeros (6 - String.length (decimal (- n)))) (decimal (- n)))
  else pad7 (decimal n).

(** Paths (navierstokes.cpp:218, 229, 283, 289, 297 and 175-178). *)
Definition solution_path (out : string) (n : Z) : string := (out ++ "/" ++ step_name n ++ ".h5")%string.
Definition log_path (logs : string) (n : Z) : string := (logs ++ "/" ++ step_name n ++ ".log")%string.
Definition iterations_path (out : string) (n : Z) : string := (out ++ "/iterations-" ++ to_string n ++ ".txt")%string.

(** applications/createxdmf/main.cpp:220-262: for (t = bg; t <= ed; t += step).
    The result is None when the loop has not ended after [fuel] iterations. *)
Fixpoint xdmf_steps (fuel : nat) (bg ed step : Z) : option (list Z) :=
  if bg <=? ed then
    match fuel with
    | O => None
    | S f => match xdmf_steps f (bg + step) ed step with Some l => Some (bg :: l) | None => None end
    end
  else Some [].
(** The file and dataset each entry refers to (lines 249-253): relative to the
    directory of the XDMF file, which is the output directory (line 133). *)
Definition xdmf_entry (out name : string) (t : Z) : string * string :=
  ((out ++ "/" ++ printf07 t ++ ".h5")%string, ("/" ++ name)%string).
(** Defaults of main (createxdmf/main.cpp:62-75). *)
Definition xdmf_default (fuel : nat) (startStep nt nsave : Z) : option (list Z) :=
  xdmf_steps fuel startStep (startStep + nt) nsave.
