(** The GPU linear solvers (AmgX): the configuration file on several processes.
    AmgX itself is not modelled beyond reading that file. *)
From Coq Require Import String ZifyBool.
From Verif Require Import Prelude ZSum TypesModel ConfigModel.
Local Open Scope string_scope.
Local Open Scope list_scope.

(** What a process does with files, in order. *)
Inductive act :=
| Create (f : string)   (* std::fstream(f, std::ios::out): a new empty file *)
| Load (f : string)     (* amgx.initialize reads the settings from f *)
| Meet                  (* wait until all processes have come this far *)
| Remove (f : string).  (* std::remove(f); its result is ignored *)

(** linsolveramgx.cpp:63 *)
Definition tmp_config : string := "solversAmgXOptions-tmp.info".

(** LinSolverAmgX::init (linsolveramgx.cpp:53-75), run by every process when the
    solver is created. [sync]: whether amgx.initialize returns only after all
    processes have read the file; AmgXWrapper is not part of the code. *)
Definition amgx_init (sync : bool) (config : string) : list act :=
  let c := if String.eqb config "None" then tmp_config else config in
  (if String.eqb config "None" then [Create c] else []) ++ [Load c] ++ (if sync then [Meet] else [])
    ++ (if String.eqb c tmp_config then [Remove c] else []).

(** The file system shared by the processes (name to content), how many actions
    each process has done, and what each has read (None: the file is missing). *)
Record world := mkWorld { w_files : string -> option string; w_done : Z -> nat; w_read : Z -> list (option string) }.
Definition put (fs : string -> option string) (f : string) (c : option string) : string -> option string :=
  fun g => if String.eqb g f then c else fs g.
Definition upd {A} (h : Z -> A) (r : Z) (x : A) : Z -> A := fun q => if (q =? r)%Z then x else h q.
Definition perform (a : act) (r : Z) (w : world) : world :=
  let next := upd (w_done w) r (S (w_done w r)) in
  match a with
  | Create f => mkWorld (put (w_files w) f (Some "")) next (w_read w)
  | Load f => mkWorld (w_files w) next (upd (w_read w) r (w_read w r ++ [w_files w f]))
  | Meet => mkWorld (w_files w) next (w_read w)
  | Remove f => mkWorld (put (w_files w) f None) next (w_read w)
  end.

(** One process of [n] does its next action; any may be next. All run the same
    program [P]. *)
Inductive move (n : Z) (P : list act) (w : world) : world -> Prop :=
| move_act r a : (0 <= r < n)%Z -> nth_error P (w_done w r) = Some a ->
    (a = Meet -> forall q, (0 <= q < n)%Z -> (w_done w r <= w_done w q)%nat) ->
    move n P w (perform a r w).
Inductive moves (n : Z) (P : list act) (w : world) : world -> Prop :=
| moves_nil : moves n P w w
| moves_snoc w' w'' : moves n P w w' -> move n P w' w'' -> moves n P w w''.
Definition before (fs : string -> option string) : world := mkWorld fs (fun _ => O) (fun _ => []).
