(** C14, C16: periodic directions with very few points. *)
From Coq Require Import ZifyBool.
From Verif Require Import Prelude ZSum RSum TypesModel GridModel GridSpec GridProof MeshProof IndexModel IndexSpec IndexProof
  BoundaryModel BoundarySpec BoundaryProof OperatorModel OperatorSpec OperatorProof BStateProof LapProof DivProof AdjProof SymProof ConvSpec ConvTotal ExampleSetup.
Local Open Scope R_scope.

(** n x 3 unit cells, all periodic, one rank. *)
Definition sp_w (n : Z) (d : Z) : list R := if (d =? 0)%Z then (if (n =? 1)%Z then [1] else [1; 1]) else [1; 1; 1].
Definition sp_mx (n : Z) (d : Z) : R := if (d =? 0)%Z then (if (n =? 1)%Z then 1 else 2) else 3.
Definition sp_mesh (n : Z) : mesh := ok_or no_mesh (createMeshArrays 2 ex_mn (sp_mx n) (ex_per true true) (sp_w n)).
Definition sp_dec (n : Z) : dec := default_dec (fun _ => 1%Z) (m_n (sp_mesh n)).
Definition sp_types (f loc : Z) : bctype := PERIODIC.

Lemma sp_setup n : (n = 1 \/ n = 2)%Z -> mesh_setup (sp_mesh n) (sp_dec n).
Proof.
  intros Hn. exists ex_mn, (sp_mx n), (ex_per true true), (sp_w n), (fun _ => 1%Z).
  assert (E : m_dim (sp_mesh n) = 2%Z) by (destruct Hn as [->| ->]; reflexivity). rewrite !E.
  split.
  { split; [left; reflexivity|]. intros d Hd. unfold sp_w, sp_mx, ex_mn, positive, total.
    destruct Hn as [->| ->]; destruct (Z.eqb_spec d 0); (split; [discriminate|split; [repeat constructor; lra|simpl; lra]]). }
  split; [destruct Hn as [->| ->]; reflexivity|]. split; [reflexivity|]. split; [intros; lia|]. split; [reflexivity|]. destruct Hn as [->| ->]; reflexivity.
Qed.
Lemma sp_fits n : (n = 1 \/ n = 2)%Z -> bc_fits (sp_mesh n) sp_types.
Proof.
  intros Hn f loc Hf Hl. assert (E : m_dim (sp_mesh n) = 2%Z) by (destruct Hn as [->| ->]; reflexivity). rewrite E in *. split; [discriminate|].
  assert (loc = 0 \/ loc = 1 \/ loc = 2 \/ loc = 3)%Z as [->|[->|[->| ->]]] by lia; destruct Hn as [->| ->]; split; reflexivity.
Qed.
Lemma sp_min n : (n = 1 \/ n = 2)%Z -> periodic_min (sp_mesh n) n.
Proof.
  intros Hn f d Hf Hd _. assert (E : m_dim (sp_mesh n) = 2%Z) by (destruct Hn as [->| ->]; reflexivity). rewrite E in *.
  assert (f = 0 \/ f = 1)%Z as [->| ->] by lia; assert (d = 0 \/ d = 1)%Z as [->| ->] by lia; destruct Hn as [->| ->]; vm_compute; discriminate.
Qed.

Lemma sp_const n B h : (n = 1 \/ n = 2)%Z -> has_ics (h ++ [OpVals (fun _ => 1)]) -> boundary_after (sp_mesh n) (sp_dec n) sp_types (fun _ _ => 0) (h ++ [OpVals (fun _ => 1)]) B ->
  extends (sp_mesh n) (sp_dec n) B (fun _ => 1) (fun _ _ => 1).
Proof.
  intros Hn Hi HB. pose proof (setup_facts _ _ (sp_setup n Hn)) as F. pose proof (sp_fits n Hn) as Hb.
  apply (uniform_extends (sp_mesh n) (sp_dec n) sp_types (fun _ _ => 0) (fun _ => 1) h (OpVals (fun _ => 1)) B (fun _ => 1) F Hb); auto; [|intros ? ? ? ?; reflexivity].
  intros f loc Hf Hl Hp. exfalso. destruct (Hb f loc Hf Hl) as [_ [H _]]. specialize (H eq_refl). congruence.
Qed.

(** C14. With two points in a periodic direction the west and the east
    neighbour are the same unknown, the second coefficient overwrites the
    first, and the Laplacian of a constant is not 0. *)
Theorem laplacian_small_periodic_refuted : exists m D types values h0 h1 x B0 B1 B2 u op c id f p,
  mesh_setup m D /\ bc_fits m types /\ has_ics h0 /\ periodic_min m 2 /\
  boundary_after m D types values h0 B0 /\ boundary_after m D types values (h0 ++ h1) B1 /\
  boundary_after m D types values (h0 ++ h1 ++ [OpVals x]) B2 /\ extends m D B2 x u /\
  createLaplacian m D B0 = Ok op /\ correction_mult m (nranks D) op B1 = Ok c /\
  nthZ (packed_layout (m_dim m) D) id = Some (f, p) /\
  mat_mult (op_log op) (n_velocity m) x id + c id = -1 /\ laplacian_at m f u p = 0.
Proof.
  pose proof (sp_setup 2 ltac:(lia)) as Hs. pose proof (sp_fits 2 ltac:(lia)) as Hb. pose proof (setup_facts _ _ Hs) as F.
  pose proof (fun h => pure_after (sp_mesh 2) (sp_dec 2) sp_types (fun _ _ => 0) h F Hb) as P.
  exists (sp_mesh 2), (sp_dec 2), sp_types, (fun _ _ => 0), [OpICs (fun _ => 1)], [], (fun _ => 1).
  do 3 eexists. exists (fun _ _ => 1). do 2 eexists. exists 0%Z, 0%Z, (0, 0, 0)%Z.
  split; [exact Hs|]. split; [exact Hb|]. split; [exists (fun _ => 1); now left|]. split; [apply sp_min; lia|].
  split; [apply P|]. split; [apply P|]. split; [apply P|]. split; [apply (sp_const 2 _ [OpICs (fun _ => 1)] ltac:(lia)); [exists (fun _ => 1); now left|apply (P ([OpICs (fun _ => 1)] ++ [OpVals (fun _ => 1)]))]|].
  split; [apply (createLaplacian_ok (sp_mesh 2) (sp_dec 2) sp_types (fun _ _ => 0) [OpICs (fun _ => 1)]); auto|].
  split; [apply (correct (sp_mesh 2) (sp_dec 2) sp_types (fun _ _ => 0) (lap_rows (sp_mesh 2) (sp_dec 2)) [OpICs (fun _ => 1)] []); auto|].
  split; [reflexivity|]. split.
  - cbv -[IZR Rplus Rmult Rdiv Ropp Rminus Rinv]. field.
  - unfold laplacian_at, second_difference. apply sumR_zero. intros d _. unfold Rdiv. ring.
Qed.
Print Assumptions laplacian_small_periodic_refuted.

(** C16. With one cell in a periodic direction the two faces of a cell are the
    same unknown, and the divergence of a constant is not 0. *)
Theorem divergence_small_periodic_refuted : exists m D types values nrm h0 h1 x B0 B1 B2 u op c id p,
  mesh_setup m D /\ bc_fits m types /\ has_ics h0 /\ periodic_min m 1 /\
  boundary_after m D types values h0 B0 /\ boundary_after m D types values (h0 ++ h1) B1 /\
  boundary_after m D types values (h0 ++ h1 ++ [OpVals x]) B2 /\ extends m D B2 x u /\
  createDivergence m D B0 nrm = Ok op /\ correction_mult m (nranks D) op B1 = Ok c /\
  nthZ (field_layout D 3) id = Some p /\
  mat_mult (op_log op) (n_velocity m) x id + c id = -1 /\ net_flux m nrm u p = 0.
Proof.
  pose proof (sp_setup 1 ltac:(lia)) as Hs. pose proof (sp_fits 1 ltac:(lia)) as Hb. pose proof (setup_facts _ _ Hs) as F.
  pose proof (fun h => pure_after (sp_mesh 1) (sp_dec 1) sp_types (fun _ _ => 0) h F Hb) as P.
  exists (sp_mesh 1), (sp_dec 1), sp_types, (fun _ _ => 0), false, [OpICs (fun _ => 1)], [], (fun _ => 1).
  do 3 eexists. exists (fun _ _ => 1). do 2 eexists. exists 0%Z, (0, 0, 0)%Z.
  split; [exact Hs|]. split; [exact Hb|]. split; [exists (fun _ => 1); now left|]. split; [apply sp_min; lia|].
  split; [apply P|]. split; [apply P|]. split; [apply P|]. split; [apply (sp_const 1 _ [OpICs (fun _ => 1)] ltac:(lia)); [exists (fun _ => 1); now left|apply (P ([OpICs (fun _ => 1)] ++ [OpVals (fun _ => 1)]))]|].
  split; [apply (createDivergence_ok (sp_mesh 1) (sp_dec 1) sp_types (fun _ _ => 0) false [OpICs (fun _ => 1)]); auto|].
  split; [apply (correct (sp_mesh 1) (sp_dec 1) sp_types (fun _ _ => 0) (div_rows (sp_mesh 1) (sp_dec 1) false) [OpICs (fun _ => 1)] []); auto|].
  split; [reflexivity|]. split.
  - cbv -[IZR Rplus Rmult Rdiv Ropp Rminus Rinv]. field.
  - unfold net_flux. apply sumR_zero. intros d _. ring.
Qed.
Print Assumptions divergence_small_periodic_refuted.
