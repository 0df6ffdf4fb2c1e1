(** C20: Bn is the truncated inverse of the implicit operator. *)
From Coq Require Import ZifyBool.
From Verif Require Import Prelude ZSum RSum MatModel BnModel BnSpec BnProof.
Local Open Scope R_scope.

Theorem bnhead_truncated_inverse : forall N Op dt c n, dt <> 0 -> (1 <= n)%Z ->
  exists B, createBnHead N Op dt c n = Ok B /\
    meq N (mmul N (implicit_matrix mident dt c Op) B) (msub mident (mpow N (mscale (c * dt) Op) (Z.to_nat n))).
Proof. exact bnhead_lemma. Qed.
Print Assumptions bnhead_truncated_inverse.

(** With R and MHead: inverse of MHead (I/dt - c Op) R^-1. *)
Theorem bn_scaled_truncated_inverse : forall N Op Rm MH dt c n, dt <> 0 -> (1 <= n)%Z -> nonzero N (mdiag Rm) -> nonzero N (mdiag MH) ->
  exists B, createBn_RM N Op Rm MH dt c n = Ok B /\
    meq N (mmul N (mdscale (mdiag MH) (vrecip (mdiag Rm)) (implicit_matrix mident dt c Op)) B)
          (msub mident (mdscale (mdiag MH) (vrecip (mdiag MH)) (mpow N (mscale (c * dt) Op) (Z.to_nat n)))).
Proof. exact bn_rm_lemma. Qed.
Print Assumptions bn_scaled_truncated_inverse.

(** With a diagonal mass matrix M: inverse of M/dt - c Op. *)
Theorem bn_mass_truncated_inverse : forall N Op M dt c n, dt <> 0 -> (1 <= n)%Z -> nonzero N (mdiag M) ->
  (forall i j, (0 <= i < N)%Z -> (0 <= j < N)%Z -> i <> j -> M i j = 0) ->
  exists B, createBn_M N Op M dt c n = Ok B /\
    meq N (mmul N (implicit_matrix M dt c Op) B)
          (msub mident (mpow N (mscale (c * dt) (mdscale vones (vrecip (mdiag M)) Op)) (Z.to_nat n))).
Proof. exact bn_m_lemma. Qed.
Print Assumptions bn_mass_truncated_inverse.

(** An order below one is rejected by all three. *)
Theorem bn_order_rejected : forall N Op M Rm MH dt c n, (n < 1)%Z ->
  createBnHead N Op dt c n = Err 56 /\ createBn_RM N Op Rm MH dt c n = Err 56 /\ createBn_M N Op M dt c n = Err 56.
Proof.
  intros N Op M Rm MH dt c n Hn. unfold createBn_RM, createBnHead, createBn_M. replace (n <? 1)%Z with true by lia. auto.
Qed.
Print Assumptions bn_order_rejected.

(** Order 3 on the one-dimensional operator [2], dt = 1, c = 1/4: 1 + 1/2 + 1/4. *)
Example bn_case : exists B, createBnHead 1 (fun _ _ => 2) 1 (1/4) 3 = Ok B /\ B 0%Z 0%Z = 7 / 4.
Proof. eexists. split; [reflexivity|]. cbv -[IZR Rplus Rminus Rmult Rinv Rdiv Ropp]. lra. Qed.
