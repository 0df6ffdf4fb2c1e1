(** The settings of the linear solvers: src/linsolver/linsolverksp.cpp and the
    order in which the applications create their solvers. *)
From Coq Require Import String.
From Verif Require Import Prelude ConfigModel.
Local Open Scope string_scope.

(** PETSc's options database: from names (with the leading dash, in the spelling
    PETSc compares them in) to values. Before the first solver is created it
    holds the options of the command line. *)
Definition optdb := string -> option string.
(** PetscOptionsSetValue: a value given again replaces the one before. *)
Definition opt_set (db : optdb) (kv : string * string) : optdb := fun k => if String.eqb k (fst kv) then Some (snd kv) else db k.
(** PetscOptionsInsertFile: the options of a file in the order of its lines
    (comments are skipped by PETSc and do not appear here). *)
Definition insert_file (db : optdb) (lines : list (string * string)) : optdb := fold_left opt_set lines db.

(** What KSPSetFromOptions finds for a solver: the options with its prefix. *)
Definition settings := string -> option string.
Definition opt_name (name o : string) : string := "-" ++ name ++ "_" ++ o.

Section Create.
(** The options files; [None]: the file cannot be opened. *)
Variable files : string -> option (list (string * string)).

(** linsolverksp.cpp:47-72 (LinSolverKSP::init): the file of the solver is
    inserted unless it is "None", the prefix is set, the type is CG unless an
    option says otherwise (KSPSetType comes before KSPSetFromOptions). *)
Definition ksp_settings (name config : string) (db : optdb) : res (optdb * settings) :=
  do db' <- (if String.eqb config "None" then Ok db
             else match files config with Some l => Ok (insert_file db l) | None => Err PETSC_ERR_FILE_OPEN end);
  Ok (db', fun o => match db' (opt_name name o) with
                    | Some v => Some v
                    | None => if String.eqb o "ksp_type" then Some "cg" else None
                    end).
(** One solver after the other. (That the constructor drops the error code of
    init is modelled in ConfigModel.v: a program that uses such a solver does
    not get further; here it ends at once.) *)
Fixpoint create_solvers (l : list (string * string)) (db : optdb) : res (list settings) :=
  match l with
  | [] => Ok []
  | (name, config) :: l' => do (db', s) <- ksp_settings name config db; do ss <- create_solvers l' db'; Ok (s :: ss)
  end.
(** navierstokes.cpp:150-154, also for the coupled immersed-boundary program
    (ibpm.cpp:54-82 calls it). *)
Definition ns_solvers (cv cp : string) : list (string * string) := [("velocity", cv); ("poisson", cp)].
(** decoupledibpm.cpp:64-75; rigidkinematics.cpp uses the same init. *)
Definition dec_solvers (cv cp cf : string) : list (string * string) := ns_solvers cv cp ++ [("forces", cf)].
End Create.
