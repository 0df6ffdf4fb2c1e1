(** A concrete stretched 2D mesh on two ranks, used to show that the
    hypotheses of the theorems are met. *)
From Verif Require Import Prelude ZSum RSum TypesModel GridModel GridSpec IndexModel IndexSpec BoundaryModel BoundarySpec.
Local Open Scope R_scope.

Definition ex_mn (d : Z) : R := 0.
Definition ex_mx (d : Z) : R := if (d =? 0)%Z then 7 else 6.
Definition ex_w (d : Z) : list R := if (d =? 0)%Z then [1; 2; 1; 3] else [1; 2; 3].
Definition ex_np (d : Z) : Z := if (d =? 0)%Z then 2%Z else 1%Z.
Definition ex_per (px py : bool) (f d : Z) : bool := if (d =? 0)%Z then px else if (d =? 1)%Z then py else false.
Definition no_mesh : mesh := mkMesh 2 (fun _ => 0) (fun _ => 0) (fun _ _ => false) (fun _ _ => fdir_default).
Definition ex_mesh (px py : bool) : mesh := ok_or no_mesh (createMeshArrays 2 ex_mn ex_mx (ex_per px py) ex_w).
Definition ex_dec (px py : bool) : dec := default_dec ex_np (m_n (ex_mesh px py)).

Lemma ex_grid : grid_ok 2 ex_mn ex_mx ex_w.
Proof.
  split; [left; reflexivity|]. intros d Hd. unfold ex_w, ex_mx, ex_mn, positive, total.
  destruct (Z.eqb_spec d 0); (split; [discriminate|split; [repeat constructor; lra|simpl; lra]]).
Qed.
Lemma ex_dim px py : m_dim (ex_mesh px py) = 2%Z.
Proof. destruct px, py; reflexivity. Qed.
Lemma ex_create px py : createMeshArrays 2 ex_mn ex_mx (ex_per px py) ex_w = Ok (ex_mesh px py).
Proof. destruct px, py; reflexivity. Qed.
Lemma ex_setup px py : mesh_setup (ex_mesh px py) (ex_dec px py).
Proof.
  exists ex_mn, ex_mx, (ex_per px py), ex_w, ex_np.
  rewrite !ex_dim. split; [exact ex_grid|]. split; [apply ex_create|]. split; [reflexivity|].
  split; [intros d Hd; unfold ex_np; destruct (d =? 0)%Z; lia|]. split; [reflexivity|].
  destruct px, py; reflexivity.
Qed.
