(** The averages of a volume probe in double precision
    (src/misc/probes.cpp:489-526). *)
From Coq Require Import ZArith List Bool.
From Flocq Require Import Core BinarySingleNaN Binary Bits.
From Verif Require Import FloatModel KernelModel.
Import ListNotations.

(** One call of ProbeVolume::monitorVec with [n_sum] not zero, for one entry of
    the vectors (src/misc/probes.cpp:501-518): the entry of [dvec], [count] and
    what has been written. VecAXPY adds 1.0 times the entry, which is the entry;
    VecScale multiplies by the double 1.0 / count. *)
Definition accumulate (n_sum : Z) (st : dbl * Z * list dbl) (v : dbl) : dbl * Z * list dbl :=
  let '(s, c, out) := st in
  let s := dadd s v in
  let c := (c + 1)%Z in
  if (Z.rem c n_sum =? 0)%Z then (dzero, 0%Z, out ++ [dmul (ddiv (dofZ 1) (dofZ c)) s]) else (s, c, out).

(** What is written for this entry in a run whose recorded values are [vs]:
    dvec starts at zero (src/misc/probes.cpp:503-507), count too
    (include/petibm/probes.h). *)
Definition averages (n_sum : Z) (vs : list dbl) : list dbl :=
  snd (fold_left (accumulate n_sum) vs (dzero, 0%Z, [])).
