(** A concrete 3D mesh (3 x 3 x 3 unit cells), on one rank. *)
From Verif Require Import Prelude ZSum RSum TypesModel GridModel GridSpec IndexModel IndexSpec BoundaryModel BoundarySpec OperatorModel OperatorSpec ExampleSetup.
Local Open Scope R_scope.

Definition c3_w (d : Z) : list R := [1; 1; 1].
Definition c3_mesh : mesh := ok_or no_mesh (createMeshArrays 3 (fun _ => 0) (fun _ => 3) (fun _ _ => false) c3_w).
Definition c3_dec : dec := default_dec (fun _ => 1%Z) (m_n c3_mesh).
Definition c3_types (f loc : Z) : bctype := DIRICHLET.

Lemma c3_grid : grid_ok 3 (fun _ => 0) (fun _ => 3) c3_w.
Proof.
  split; [right; reflexivity|]. intros d Hd. unfold c3_w, positive, total.
  split; [discriminate|split; [repeat constructor; lra|simpl; lra]].
Qed.
Lemma c3_dim : m_dim c3_mesh = 3%Z.
Proof. reflexivity. Qed.
Lemma c3_create : createMeshArrays 3 (fun _ => 0) (fun _ => 3) (fun _ _ => false) c3_w = Ok c3_mesh.
Proof. reflexivity. Qed.
Lemma c3_setup : mesh_setup c3_mesh c3_dec.
Proof.
  exists (fun _ => 0), (fun _ => 3), (fun _ _ => false), c3_w, (fun _ => 1%Z).
  rewrite !c3_dim. split; [exact c3_grid|]. split; [apply c3_create|]. split; [reflexivity|].
  split; [intros d Hd; lia|]. split; [reflexivity|]. reflexivity.
Qed.
Lemma c3_fits : bc_fits c3_mesh c3_types.
Proof. intros f loc Hf Hl. split; [discriminate|]. unfold c3_types. split; [discriminate|]. rewrite c3_dim in *. unfold periodic_dir. cbn. discriminate. Qed.
