(** The text of the lines that the programs print: forces, point probes and
    iterations. *)
From Coq Require Import String.
From Verif Require Import Prelude ZSum RSum TypesModel BodyModel IterModel.
Local Open Scope string_scope.
Local Open Scope list_scope.

(** writeForcesASCII (ibpm.cpp:406-418, decoupledibpm.cpp:436-448): the time,
    then the components of the force on each body, each number followed by a
    tabulator. [pr] is printf's "%10.8e", [line] the numbers (IbOutModel.v). The
    end of the line is not part of the string. *)
Definition forces_text (pr : R -> string) (line : list R) : string :=
  fold_right (fun x s => (pr x ++ tab ++ s)%string) "" line.

(** ProbePoint::monitorVec (probes.cpp:682): "%10.8e\t%10.8e\n". *)
Definition probe_text (pr : R -> string) (line : R * R) : string := (pr (fst line) ++ tab ++ pr (snd line))%string.

(** writeLinSolversInfo (navierstokes.cpp:776-792, decoupledibpm.cpp:393-414):
    "%d\t", then "%d\t%e" for each solver, with a tabulator between and the end
    of the line after the last. [pd] is printf's "%d", [pe] is "%e". *)
Definition iterations_text (pd : Z -> string) (pe : R -> string) (l : line) : string :=
  (pd (l_step l) ++ tab ++ String.concat tab (map (fun r => pd (fst r) ++ tab ++ pe (snd r)) (l_reports l)))%string.
