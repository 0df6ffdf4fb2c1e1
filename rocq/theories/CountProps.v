(** C08: the numbers of unknowns that the mesh reports. *)
From Coq Require Import String ZifyBool.
From Verif Require Import Prelude ZSum RSum TypesModel GridModel GridSpec GridProof MeshProof IndexModel IndexSpec IndexProof BoundaryModel BoundarySpec BoundaryProof BStateProof OperatorModel OperatorSpec ConvRespect ProbeProps.
Local Open Scope Z_scope.

(** C08: UN and pN are the lengths of the velocity vector and of the pressure
    vector, on any process grid. *)
Theorem mesh_counts : forall m D, mesh_setup m D ->
  lenZ (packed_layout (m_dim m) D) = m_UN m /\ lenZ (field_layout D 3) = m_pN m.
Proof.
  intros m D H. pose proof (setup_facts m D H) as F. split.
  - rewrite packed_length by exact F. unfold n_velocity, m_UN, m_npts, npoints. destruct (mf_dim _ _ F) as [->| ->]; [rewrite isum_2|rewrite isum_3].
    + change (zrange 0 2) with [0; 1]. cbn [fold_left]. lia.
    + change (zrange 0 3) with [0; 1; 2]. cbn [fold_left]. lia.
  - assert (Hd3 := mf_dec _ _ F 3%Z (or_intror eq_refl)).
    pose proof (sizes_pos m D 3 0 F (or_intror eq_refl) ltac:(lia)). pose proof (sizes_pos m D 3 1 F (or_intror eq_refl) ltac:(lia)). pose proof (sizes_pos m D 3 2 F (or_intror eq_refl) ltac:(lia)).
    apply (field_layout_len D (m_n m 3)); auto; lia.
Qed.
Print Assumptions mesh_counts.

(** There are such meshes. *)
Example mesh_counts_case : exists m D, mesh_setup m D.
Proof. destruct pressure_point_case as (m & D & r & loc & H & _). exists m, D. exact H. Qed.
