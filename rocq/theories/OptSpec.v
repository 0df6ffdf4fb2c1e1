(** Statements about the settings of the linear solvers. *)
From Coq Require Import String.
From Verif Require Import Prelude.
Local Open Scope string_scope.

(** The value a list of options gives to a name: the last one. *)
Fixpoint last_value (l : list (string * string)) (k : string) : option string :=
  match l with
  | [] => None
  | (k', v) :: t => match last_value t k with Some x => Some x | None => if String.eqb k' k then Some v else None end
  end.
(** The options of a solver's file; none when there is no file. *)
Definition file_of (files : string -> option (list (string * string))) (config : string) : list (string * string) :=
  if String.eqb config "None" then [] else match files config with Some l => l | None => [] end.
(** The first of two values that is given. *)
Definition first_of (a b : option string) : option string := match a with Some x => Some x | None => b end.
(** The value used when no option is given: conjugate gradients. *)
Definition default_value (o : string) : option string := if String.eqb o "ksp_type" then Some "cg" else None.
(** All options of the file have the prefix of the solver. *)
Definition only_own (name : string) (l : list (string * string)) : Prop := forall k v, In (k, v) l -> exists o, k = "-" ++ name ++ "_" ++ o.
