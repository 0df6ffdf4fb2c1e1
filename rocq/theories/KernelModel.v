(** The delta kernels in double precision, operation by operation as C++
    evaluates them (src/misc/delta.cpp). *)
From Coq Require Import ZArith List Bool String.
From Flocq Require Import Core BinarySingleNaN Binary Bits.
From Verif Require Import FloatModel.
Import ListNotations.

Definition dmul (x y : dbl) : dbl := b64_mult mode_NE x y.
Definition dsqrt (x : dbl) : dbl := b64_sqrt mode_NE x.
Definition dabs (x : dbl) : dbl := b64_abs x.
(** C++ [<] on doubles. *)
Definition dlt (x y : dbl) : bool := match b64_compare x y with Some Lt => true | _ => false end.
(** The literals 1.5 and 0.5. *)
Definition d3_2 : dbl := ddiv (dofZ 3) (dofZ 2).
Definition d1_2 : dbl := ddiv (dofZ 1) (dofZ 2).

(** src/misc/delta.cpp:17-28. *)
Definition Roma_dbl (r dr : dbl) : dbl :=
  let x := ddiv (dabs r) dr in
  if dlt d3_2 x then dofZ 0
  else if dlt d1_2 x && dle x d3_2 then
    ddiv (dsub (dsub (dofZ 5) (dmul (dofZ 3) x)) (dsqrt (dadd (dmul (dmul (dofZ (-3)) (dsub (dofZ 1) x)) (dsub (dofZ 1) x)) (dofZ 1)))) (dmul (dofZ 6) dr)
  else ddiv (dadd (dofZ 1) (dsqrt (dadd (dmul (dmul (dofZ (-3)) x) x) (dofZ 1)))) (dmul (dofZ 3) dr).

(** src/misc/delta.cpp:30-41. *)
Definition Peskin_dbl (r dr : dbl) : dbl :=
  let x := ddiv (dabs r) dr in
  if dle (dofZ 0) x && dle x (dofZ 1) then
    ddiv (dadd (dsub (dofZ 3) (dmul (dofZ 2) x)) (dsqrt (dsub (dadd (dofZ 1) (dmul (dofZ 4) x)) (dmul (dmul (dofZ 4) x) x)))) (dmul (dofZ 8) dr)
  else if dle (dofZ 1) x && dle x (dofZ 2) then
    ddiv (dsub (dsub (dofZ 5) (dmul (dofZ 2) x)) (dsqrt (dsub (dadd (dofZ (-7)) (dmul (dofZ 12) x)) (dmul (dmul (dofZ 4) x) x)))) (dmul (dofZ 8) dr)
  else dofZ 0.

(** src/misc/delta.cpp:43-64: the kernel by its name in the configuration
    (its window is in DeltaModel.v). *)
Definition getKernel_dbl (name : string) : option (dbl -> dbl -> dbl) :=
  if (name =? "ROMA_ET_AL_1999")%string then Some Roma_dbl
  else if (name =? "PESKIN_2002")%string then Some Peskin_dbl
  else None.

(** src/misc/delta.cpp:66-76: the product over the directions. The three lists
    have the same length in every call; the model stops at the shortest. *)
Definition delta_dbl (source target widths : list dbl) (K : dbl -> dbl -> dbl) : dbl :=
  fold_left (fun phi stw => dmul phi (K (dsub (fst (fst stw)) (snd (fst stw))) (snd stw))) (combine (combine source target) widths) (dofZ 1).
