(** Every step of the modelled solver succeeds when the convection operator does. *)
From Coq Require Import ZifyBool.
From Verif Require Import Prelude ZSum RSum TypesModel GridModel GridSpec GridProof MeshProof IndexModel IndexSpec IndexProof
  BoundaryModel BoundarySpec BoundaryProof OperatorModel OperatorSpec OperatorProof BStateProof LapProof DivProof GradProof AdjProof SymProof
  MatModel BnModel BnSpec BnProof NSModel NSSpec NSProof.
Local Open Scope R_scope.

Lemma mapM_total {A B} (f : A -> res B) l : (forall x, In x l -> is_ok (f x)) -> is_ok (mapM f l).
Proof.
  induction l as [|x t IH]; intros H; [exists []; reflexivity|]. cbn [mapM]. destruct (H x (or_introl eq_refl)) as [y ->].
  destruct IH as [ys ->]; [intros; apply H; now right|]. cbn [bind]. eexists. reflexivity.
Qed.

Lemma init_total m D P types values t0 n0 U0 p0 : mfacts m D -> bc_fits m types -> (1 <= p_bn P)%Z ->
  exists ops s0, ns_init m D P types values t0 n0 U0 p0 = Ok (ops, s0).
Proof.
  intros F Hb Hn. unfold ns_init.
  destruct (mapM_total (fun r => createBoundary m D r types values) (zrange 0 (nranks D))) as [bl Ebl].
  { intros r Hr. apply zrange_In in Hr. destruct (pure_after m D types values [] F Hb r Hr) as (b0 & E & _). exists b0. exact E. }
  rewrite Ebl. cbn [bind]. pose proof (create_after m D types values bl F Hb Ebl) as H0.
  destruct (bc_call_after m D types values [] _ (OpICs U0) F Hb H0) as (B & EB & HB). rewrite EB. cbn [bind]. cbn [app] in HB.
  unfold createOperators. rewrite (createDivergence_ok m D types values false [OpICs U0] B F Hb HB). cbn [bind].
  rewrite createGradient_ok by auto. cbn [bind]. rewrite (createLaplacian_ok m D types values [OpICs U0] B F Hb HB). cbn [bind].
  unfold createBnHead. replace (p_bn P <? 1)%Z with false by lia. destruct (p_bn P =? 1)%Z; cbn [bind]; eauto.
Qed.

Lemma rotate_total l : exists l', rotate l = Ok l' /\ lenZ l' = lenZ l.
Proof.
  destruct l as [|z t] using rev_ind; [exists []; auto|]. clear IHt. rewrite rotate_ok. eexists. split; [reflexivity|].
  rewrite lenZ_app, lenZ_cons. change (lenZ [z]) with 1%Z. lia.
Qed.
Lemma wr_total {A} (l : list A) i x : (0 <= i < lenZ l)%Z -> exists l', wr l i x = Ok l' /\ lenZ l' = lenZ l.
Proof.
  intros H. unfold wr. replace ((0 <=? i)%Z && (i <? lenZ l)%Z) with true by lia. eexists. split; [reflexivity|].
  unfold lenZ. now rewrite upd_nat_length.
Qed.
Lemma add_terms_total coeffs h y : (lenZ h <= lenZ coeffs)%Z -> is_ok (add_terms coeffs h y).
Proof.
  intros H. unfold add_terms. assert (G : forall l y, (forall i, In i l -> (0 <= i < lenZ h)%Z) ->
    is_ok (foldM (fun y i => do c <- rd coeffs i; do v <- rd h i; Ok (vaxpy y c v)) l y)).
  { induction l as [|i t IH]; intros y0 Hl; [eexists; reflexivity|]. cbn [foldM]. specialize (Hl i (or_introl eq_refl)) as Hi.
    destruct (nthZ_in_range coeffs i ltac:(lia)) as [c Hc]. destruct (nthZ_in_range h i ltac:(lia)) as [v Hv].
    rewrite (proj2 (rd_Ok _ _ _) Hc), (proj2 (rd_Ok _ _ _) Hv). cbn [bind]. apply IH. intros; apply Hl; now right. }
  apply G. intros i Hi. now apply zrange_In in Hi.
Qed.

Section Total.
Variables (m : mesh) (D : dec) (P : nspar) (types : Z -> Z -> bctype) (values : Z -> Z -> R).
Hypotheses (F : mfacts m D) (Hb : bc_fits m types).

Lemma correction_lap B0 ops U0 h1 B : createOperators m D B0 P = Ok ops -> boundary_after m D types values [OpICs U0] B0 ->
  boundary_after m D types values ([OpICs U0] ++ h1) B -> is_ok (correction_mult m (nranks D) (o_L ops) B) /\ is_ok (correction_mult m (nranks D) (o_D ops) B).
Proof.
  intros EO H0 H1. destruct (createOperators_inv _ _ _ _ _ EO) as (d & g & l & BN & Ed & Eg & El & EB & ->). cbn [o_L o_D].
  rewrite (createDivergence_ok m D types values false [OpICs U0] B0 F Hb H0) in Ed. injection Ed as <-.
  rewrite (createLaplacian_ok m D types values [OpICs U0] B0 F Hb H0) in El. injection El as <-.
  split; eexists; eapply correct; eauto.
Qed.

Lemma rhsvel_total n conv ops U0 h1 s :
  (forall h B, boundary_after m D types values ([OpICs U0] ++ h) B -> is_ok (correction_mult m (nranks D) (o_L ops) B)) ->
  boundary_after m D types values ([OpICs U0] ++ h1) (s_bc s) ->
  (lenZ (s_conv s) <= lenZ (p_cexp P))%Z -> (lenZ (s_diff s) <= lenZ (p_dexp P))%Z ->
  is_ok (conv (s_bc s) (s_U s)) -> exists rhs s1, rhs_velocity n m D P ops conv s = Ok (rhs, s1).
Proof.
  intros HL H1 Lc Ld [cv Ecv]. unfold rhs_velocity. cbn [s_t s_ite s_U s_p s_dP s_conv s_diff s_bc].
  destruct (rotate_total (s_conv s)) as (cs & -> & Lcs). cbn [bind]. rewrite Ecv.
  assert (X : exists cs', (if (0 <? lenZ cs)%Z then do c <- Ok cv; wr cs 0 (vscale (-1) c) else Ok cs) = Ok cs' /\ lenZ cs' = lenZ cs).
  { destruct (Z.ltb_spec 0 (lenZ cs)); [|eauto]. cbn [bind]. apply wr_total. lia. }
  destruct X as (cs' & -> & Lcs'). cbn [bind].
  destruct (add_terms_total (p_cexp P) cs' (vaxpy (vscale (-1) (mvec n (o_G ops) (s_p s))) (1 / p_dt P) (s_U s)) ltac:(lia)) as [r1 ->]. cbn [bind].
  destruct (rotate_total (s_diff s)) as (ds & -> & Lds). cbn [bind].
  destruct (HL _ _ H1) as [cl ->].
  assert (Y : exists ds', (if (0 <? lenZ ds)%Z then do c <- Ok cl; wr ds 0 (vscale (p_nu P) (vaxpy c 1 (mvec (n_velocity m) (entry (op_log (o_L ops))) (s_U s)))) else Ok ds) = Ok ds' /\ lenZ ds' = lenZ ds).
  { destruct (Z.ltb_spec 0 (lenZ ds)); [|eauto]. cbn [bind]. apply wr_total. lia. }
  destruct Y as (ds' & -> & Lds'). cbn [bind].
  destruct (add_terms_total (p_dexp P) ds' r1 ltac:(lia)) as [r2 ->]. cbn [bind].
  destruct (bc_call_after m D types values _ _ (OpEqs (s_U s) (p_dt P)) F Hb H1) as (B1 & -> & HB1). cbn [bind]. rewrite <- app_assoc in HB1.
  destruct (HL _ _ HB1) as [c1 ->]. cbn [bind]. eexists _, _. reflexivity.
Qed.

Lemma advance_with_total n rp conv vs ps ops U0 h1 s :
  (forall h B, boundary_after m D types values ([OpICs U0] ++ h) B -> is_ok (correction_mult m (nranks D) (o_L ops) B)) ->
  (forall h B U, boundary_after m D types values ([OpICs U0] ++ h) B -> is_ok (rp U B)) ->
  boundary_after m D types values ([OpICs U0] ++ h1) (s_bc s) ->
  (lenZ (s_conv s) <= lenZ (p_cexp P))%Z -> (lenZ (s_diff s) <= lenZ (p_dexp P))%Z ->
  is_ok (conv (s_bc s) (s_U s)) -> is_ok (advance_with n m D P ops (rhs_velocity n m D P ops conv) rp vs ps s).
Proof.
  intros HL HR H1 Lc Ld Hc. unfold advance_with.
  set (s' := mkNS (s_t s + p_dt P) (s_ite s + 1) (s_U s) (s_p s) (s_dP s) (s_conv s) (s_diff s) (s_bc s)).
  destruct (rhsvel_total n conv ops U0 h1 s' HL H1 Lc Ld Hc) as (rhs & s1 & E). rewrite E. cbn [bind].
  destruct (rhsvel_inv _ _ _ _ _ _ _ _ _ E) as (XB & _).
  pose proof (bc_call_inv m D types values _ _ _ _ F Hb H1 XB) as HB1. rewrite <- app_assoc in HB1.
  destruct (HR _ _ (vs (s_U s1) rhs) HB1) as [rhs2 ->]. cbn [bind].
  match goal with |- context [bc_call m D ?o (s_bc s1)] => destruct (bc_call_after m D types values _ _ o F Hb HB1) as (B2 & -> & _) end.
  cbn [bind]. eexists. reflexivity.
Qed.

Lemma advance_total conv vs ps B0 ops U0 h1 s :
  createOperators m D B0 P = Ok ops -> boundary_after m D types values [OpICs U0] B0 ->
  boundary_after m D types values ([OpICs U0] ++ h1) (s_bc s) ->
  (lenZ (s_conv s) <= lenZ (p_cexp P))%Z -> (lenZ (s_diff s) <= lenZ (p_dexp P))%Z ->
  is_ok (conv (s_bc s) (s_U s)) -> is_ok (advance m D P ops conv vs ps s).
Proof.
  intros EO H0 H1 Lc Ld Hc. apply (advance_with_total (n_pressure m) (assembleRHSPoisson m D P ops) conv vs ps ops U0 h1 s); auto.
  - intros h B HB. exact (proj1 (correction_lap _ _ _ _ _ EO H0 HB)).
  - intros h B U HB. unfold assembleRHSPoisson. destruct (proj2 (correction_lap _ _ _ _ _ EO H0 HB)) as [c ->]. cbn [bind]. eexists. reflexivity.
Qed.

Lemma steps_total conv vs ps t0 n0 U0 p0 ops s0 k : ns_init m D P types values t0 n0 U0 p0 = Ok (ops, s0) ->
  (forall h B x, boundary_after m D types values ([OpICs U0] ++ h) B -> is_ok (conv B x)) ->
  exists s, ns_steps m D P ops conv vs ps k s0 = Ok s.
Proof.
  intros HI Hc. induction k as [|k [s IH]]; [eexists; reflexivity|]. cbn [ns_steps]. rewrite IH. cbn [bind].
  destruct (steps_boundary _ _ _ _ _ _ _ _ _ _ _ _ _ _ _ _ F Hb HI IH) as (h1 & Hh).
  destruct (ns_init_inv _ _ _ _ _ _ _ _ _ _ _ F Hb HI) as (B0 & HB0 & EO & E0).
  pose proof (history_conv m D P ops conv vs ps s0 k s IH) as [Lc _]. pose proof (history_diff m D P ops conv vs ps s0 k s IH) as [Ld _].
  rewrite E0 in Lc, Ld. cbn [s_conv s_diff] in Lc, Ld. rewrite lenZ_map in Lc, Ld.
  apply (advance_total conv vs ps B0 ops U0 h1 s); auto; try lia. exact (Hc h1 _ _ Hh).
Qed.
End Total.
