(** Model of src/operators/createbn.cpp. [N] is the size of the square
    operator. The preallocation and nonzero-pattern calls have no effect on the
    values and are not modelled. *)
From Verif Require Import Prelude ZSum RSum MatModel.
Local Open Scope R_scope.

(** createbn.cpp:63-78: the loop [for c = 2; c < term] that multiplies on the left. *)
Definition bn_power (N : Z) (left right0 : mat) (term : Z) : mat :=
  fold_left (fun right _ => mmul N left right) (zrange 2 term) right0.
(** createbn.cpp:80-81 *)
Definition bn_coeff (dt coeff : R) (term : Z) : R := dt ^ Z.to_nat term * coeff ^ Z.to_nat (term - 1).

(** createbn.cpp:19-95 *)
Definition createBnHead (N : Z) (Op : mat) (dt coeff : R) (n : Z) : res mat :=
  if (n <? 1)%Z then Err 56
  else
    let B0 := mshift mzero dt in
    if (n =? 1)%Z then Ok B0
    else Ok (fold_left (fun B term => maxpy B (bn_coeff dt coeff term) (bn_power N Op Op term)) (zrange 2 (n + 1)) B0).

(** createbn.cpp:98-128 *)
Definition createBn_RM (N : Z) (Op Rm MHead : mat) (dt coeff : R) (n : Z) : res mat :=
  do B <- createBnHead N Op dt coeff n;
  Ok (mdscale (mdiag Rm) (vrecip (mdiag MHead)) B).

(** createbn.cpp:131-220 *)
Definition createBn_M (N : Z) (Op M : mat) (dt coeff : R) (n : Z) : res mat :=
  if (n <? 1)%Z then Err 56
  else
    let mi := vrecip (mdiag M) in
    let B0 := mscale dt (mdset mzero mi) in
    if (n =? 1)%Z then Ok B0
    else
      let left := mdscale mi vones Op in
      Ok (fold_left (fun B term => maxpy B (bn_coeff dt coeff term) (mdscale vones mi (bn_power N left left term)))
                    (zrange 2 (n + 1)) B0).
