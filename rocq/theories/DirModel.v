(** The directories of a run, created by all processes at once. *)
From Coq Require Import String ZifyBool.
From Verif Require Import Prelude ZSum TypesModel.
Local Open Scope string_scope.
Local Open Scope list_scope.

Inductive kind := IsDir | IsFile.
Definition fsys := string -> option kind.

Section Posix.
(** The directory a path lies in, and the permissions. *)
Variable parent : string -> string.
Variable may : string -> bool.

(** POSIX mkdir. *)
Inductive mkdir_result := Made | EEXIST | Refused.
Definition mkdir (fs : fsys) (d : string) : fsys * mkdir_result :=
  match fs d with
  | Some _ => (fs, EEXIST)
  | None =>
      match fs (parent d) with
      | Some IsDir => if may d then (fun p => if String.eqb p d then Some IsDir else fs p, Made) else (fs, Refused)
      | _ => (fs, Refused)
      end
  end.

(** createDirectory (parser.cpp:25-40): that the path exists is not an error. *)
Definition createDirectory (fs : fsys) (d : string) : fsys * res unit :=
  match mkdir fs d with
  | (fs', Made) => (fs', Ok tt)
  | (fs', EEXIST) => (fs', Ok tt)
  | (fs', Refused) => (fs', Err 1%Z)
  end.

(** One process: getSettings (parser.cpp:189-208) creates the directories in
    order and returns at the first error. [p_todo] is what is left. *)
Record process := mkProc { p_todo : list string; p_result : res unit }.
Definition proc_step (fs : fsys) (p : process) : fsys * process :=
  match p_todo p with
  | [] => (fs, p)
  | d :: ds =>
      match createDirectory fs d with
      | (fs', Ok _) => (fs', mkProc ds (Ok tt))
      | (fs', Err e) => (fs', mkProc [] (Err e))
      | (fs', UB) => (fs', mkProc [] UB)
      end
  end.

(** [n] processes on a shared file system; any may do its next call. *)
Record dworld := mkDW { d_fs : fsys; d_proc : Z -> process }.
Inductive dmove (n : Z) (w : dworld) : dworld -> Prop :=
| dmove_proc r : (0 <= r < n)%Z -> p_todo (d_proc w r) <> [] ->
    dmove n w (mkDW (fst (proc_step (d_fs w) (d_proc w r)))
                    (fun q => if (q =? r)%Z then snd (proc_step (d_fs w) (d_proc w r)) else d_proc w q)).
Inductive dmoves (n : Z) (w : dworld) : dworld -> Prop :=
| dmoves_nil : dmoves n w w
| dmoves_snoc w' w'' : dmoves n w w' -> dmove n w' w'' -> dmoves n w w''.
Definition at_start (fs : fsys) (ds : list string) : dworld := mkDW fs (fun _ => mkProc ds (Ok tt)).

(** A single process that runs alone, to its end. *)
Fixpoint alone (fs : fsys) (ds : list string) : fsys * res unit :=
  match ds with
  | [] => (fs, Ok tt)
  | d :: t =>
      match createDirectory fs d with
      | (fs', Ok _) => alone fs' t
      | (fs', Err e) => (fs', Err e)
      | (fs', UB) => (fs', UB)
      end
  end.
End Posix.
