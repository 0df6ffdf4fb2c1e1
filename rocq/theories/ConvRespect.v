(** The convection operator reads the velocity only at the unknowns and the
    boundary object only at the ranks that exist. *)
From Verif Require Import Prelude ZSum RSum TypesModel GridModel IndexModel IndexSpec IndexProof BoundaryModel BoundarySpec BoundaryProof
  OperatorModel OperatorSpec MatModel ConvModel ConvProof DriverSpec RestartProof AdjProof.
Local Open Scope R_scope.

Lemma packed_length m D : mfacts m D -> lenZ (packed_layout (m_dim m) D) = n_velocity m.
Proof.
  intros F. assert (DA : dec_all (m_dim m) D (m_n m)) by (intros g Hg; apply (mf_dec _ _ F); auto).
  apply packed_layout_len; auto; [intros; apply (mf_sizes _ _ F); auto|]. pose proof (mf_dim _ _ F). lia.
Qed.

Theorem convection_respects m D : mfacts m D -> conv_respects m D (convection m D).
Proof.
  intros F B B' x x' y HB Hx E.
  assert (EF : forall r q, (0 <= r < nranks D)%Z -> fill m D B' x' r q = fill m D B x r q).
  { intros r q Hr. unfold fill. apply mapM_ext_in. intros f _. rewrite (HB r Hr). destruct (rd q f) as [old| |]; [|reflexivity|reflexivity]. cbn [bind].
    replace (scatter m D x' r f old) with (scatter m D x r f old); [reflexivity|].
    unfold scatter. apply mapM_ext_in. intros [id p] _. destruct (has_image _ _ _); [|reflexivity].
    destruct (findpos _ _ _ _) as [g|] eqn:Eg; [|reflexivity]. apply findpos_Some in Eg; [|apply pos_eqb_spec].
    rewrite (Hx g); [reflexivity|]. destruct Eg as [_ Eg]. apply nthZ_Some_range in Eg. pose proof (packed_length m D F : @lenZ (Z * pt) _ = _) as L. rewrite L in Eg. lia. }
  exists y. split; [|intros ? _; reflexivity]. rewrite <- E. unfold convection, convectionMult.
  rewrite (mapM_ext_in (fun r => do q <- rd (createConvection m D) r; fill m D B' x' r q) (fun r => do q <- rd (createConvection m D) r; fill m D B x r q)); [reflexivity|].
  intros r Hr. apply zrange_In in Hr. destruct (rd _ _); [|reflexivity|reflexivity]. cbn [bind]. now apply EF.
Qed.
