(** The files of the probes as several processes handle them, in any order that
    the barriers of the program allow. *)
From Coq Require Import String ZifyBool.
From Verif Require Import Prelude ZSum RSum TypesModel GridModel IndexModel BoundaryModel OperatorModel MatModel ConvModel ProbeModel.
Local Open Scope string_scope.
Local Open Scope list_scope.

Section S.
Context {A : Type}.

(** What a process does with the files shared by all: open with "w" (a new empty
    file, whatever was there), write at the end, open an existing file. *)
Inductive fact := Trunc (f : string) | Add (f : string) (x : A) | Look (f : string).
(** The program of each process: its actions between one barrier and the next
    (MPI_Barrier, boundarysimple.cpp:122 among others). *)
Definition fprog : Type := Z -> list (list fact).
Definition fphase (P : fprog) (k : nat) (r : Z) : list fact := nth k (P r) [].

(** The files; for each process the number of barriers passed, what it has done
    since the last one, and what it found when it opened existing files, with the
    number of barriers passed then. *)
Record fworld := mkFW { f_disk : string -> option (list A); f_phase : Z -> nat; f_did : Z -> list fact;
                        f_seen : Z -> list (nat * string * option (list A)) }.
Definition fact_disk (a : fact) (d : string -> option (list A)) : string -> option (list A) :=
  match a with
  | Trunc f => fun g => if String.eqb g f then Some [] else d g
  | Add f x => fun g => if String.eqb g f then Some (match d f with Some l => l ++ [x] | None => [x] end) else d g
  | Look _ => d
  end.
Definition zupd {B} (h : Z -> B) (r : Z) (x : B) : Z -> B := fun q => if (q =? r)%Z then x else h q.

(** One of [n] processes does its next action, or passes a barrier that all have
    reached. Buffers are not modelled: what a process writes is in the file. *)
Inductive fmove (n : Z) (P : fprog) (w : fworld) : fworld -> Prop :=
| fmove_act r a l : (0 <= r < n)%Z -> fphase P (f_phase w r) r = f_did w r ++ a :: l ->
    fmove n P w (mkFW (fact_disk a (f_disk w)) (f_phase w) (zupd (f_did w) r (f_did w r ++ [a]))
      (match a with Look f => zupd (f_seen w) r (f_seen w r ++ [(f_phase w r, f, f_disk w f)]) | _ => f_seen w end))
| fmove_barrier r : (0 <= r < n)%Z -> (S (f_phase w r) < List.length (P r))%nat -> f_did w r = fphase P (f_phase w r) r ->
    (forall q, (0 <= q < n)%Z -> (f_phase w r < f_phase w q)%nat \/ (f_phase w q = f_phase w r /\ f_did w q = fphase P (f_phase w q) q)) ->
    fmove n P w (mkFW (f_disk w) (zupd (f_phase w) r (S (f_phase w r))) (zupd (f_did w) r []) (f_seen w)).
Inductive fmoves (n : Z) (P : fprog) (w : fworld) : fworld -> Prop :=
| fmoves_nil : fmoves n P w w
| fmoves_snoc w' w'' : fmoves n P w w' -> fmove n P w' w'' -> fmoves n P w w''.
Definition fstart (d : string -> option (list A)) : fworld := mkFW d (fun _ => O) (fun _ => []) (fun _ => []).
(** All processes have done all they had to do. *)
Definition fdone (n : Z) (P : fprog) (w : fworld) : Prop :=
  forall r, (0 <= r < n)%Z -> S (f_phase w r) = List.length (P r) /\ f_did w r = fphase P (f_phase w r) r.

(** A point probe (probes.cpp:630-634, 676-684): init opens the file on every
    process; then, each time step, after the barrier at the end of advance
    (updateGhostValues: navierstokes.cpp:263, decoupledibpm.cpp:128,
    boundarysimple.cpp:122), the lines the process has for the step. *)
Definition point_acts (path : string) (steps : list (list A)) : list (list fact) :=
  [Trunc path] :: map (map (Add path)) steps.

(** A volume probe (probes.cpp:163-222, 332-485, 529-594): the first process makes
    the file and writes the sub-mesh; then it is opened again, and the index set
    and the records of each step are written. An ASCII file is opened again by the
    first process only, after a barrier (probes.cpp:426). An HDF5 file is opened
    again by all, without a barrier in the code; [sync]: whether opening it
    together waits for all processes (before and after), which is up to MPI. That
    the pieces of the other processes reach the file through the first one is a
    simplification for HDF5. *)
Definition volume_acts (hdf5 sync : bool) (path : string) (r : Z) (grid : list A) (is : A) (steps : list (list A)) : list (list fact) :=
  let first := fun l : list fact => if (r =? 0)%Z then l else [] in
  let make := first (Trunc path :: map (Add path) grid) in
  let go_on := first [Add path is] in
  (if negb hdf5 then [make; go_on]
   else if sync then [make; [Look path]; go_on]
   else [make ++ [Look path] ++ go_on])
  ++ map (fun s => first (map (Add path) s)) steps.
End S.
Arguments fact A : clear implicits.
Arguments fprog A : clear implicits.
Arguments fworld A : clear implicits.

(** The lines of one process for each step: monitor of its point probe, call
    after call (probes.cpp:114-148, 665-687; navierstokes.cpp:839-856). *)
Fixpoint point_steps (m : mesh) (D : dec) (c : pconf) (r : Z) (P : pprobe) (calls : list call) : res (list (list (R * R))) :=
  match calls with
  | [] => Ok []
  | (n, t, U, y) :: cs =>
      do (P', o) <- monitor m D c (probePointMonitorVec m D r (pc_field c)) P U y n t;
      do os <- point_steps m D c r P' cs; Ok (o :: os)
  end.
