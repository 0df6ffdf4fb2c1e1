(** Model of the nested-loop helpers, include/petibm/misc.h:170-229. *)
From Verif Require Import Prelude.
Local Open Scope Z_scope.

Section Loops.
(** The body may change a state and returns an error code (0 = success). *)
Context {S : Type}.

(** [for (i in l) { ierr = f(i); CHKERRQ(ierr); } return 0;] *)
Fixpoint loopE (l : list Z) (f : Z -> S -> S * Z) (s : S) : S * Z :=
  match l with
  | [] => (s, 0)
  | i :: t => let '(s', e) := f i s in if e =? 0 then loopE t f s' else (s', e)
  end.

(** include/petibm/misc.h:184-199 *)
Definition doubleLoops (bg1 ed1 bg2 ed2 : Z) (f : Z -> Z -> S -> S * Z) (s : S) : S * Z :=
  loopE (zrange bg1 ed1) (fun i => loopE (zrange bg2 ed2) (fun j => f i j)) s.

(** include/petibm/misc.h:211-229 *)
Definition tripleLoops (bg1 ed1 bg2 ed2 bg3 ed3 : Z) (f : Z -> Z -> Z -> S -> S * Z) (s : S) : S * Z :=
  loopE (zrange bg1 ed1) (fun i => doubleLoops bg2 ed2 bg3 ed3 (f i)) s.
End Loops.
