(** Specification vocabulary: the end of the creation of a GPU solver. *)
From Coq Require Import String.
From Verif Require Import Prelude GpuModel.

(** Every one of the [n] processes has done all of [P]. *)
Definition finished (n : Z) (P : list act) (w : world) : Prop := forall r, (0 <= r < n)%Z -> w_done w r = length P.
