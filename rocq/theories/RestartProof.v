From Coq Require Import ZifyBool String.
From Verif Require Import Prelude ZSum RSum TypesModel GridModel GridSpec GridProof MeshProof
  IndexModel IndexSpec IndexProof BoundaryModel BoundarySpec BoundaryProof OperatorModel OperatorSpec OperatorProof BStateProof LapProof AdjProof
  MatModel BnModel NSModel NSSpec NSProof NSTotal NameModel NameProof DriverModel DriverSpec DriverProof DriveProof.
Local Open Scope R_scope.

(** * Boundary objects and equal vectors *)
Definition op_eq (m : mesh) (o o' : bop) : Prop :=
  match o, o' with
  | OpICs v, OpICs v' => veq (n_velocity m) v v'
  | OpEqs v dt, OpEqs v' dt' => veq (n_velocity m) v v' /\ dt = dt'
  | OpVals v, OpVals v' => veq (n_velocity m) v v'
  | _, _ => False
  end.
Lemma pstep_cong m sb p o o' : op_eq m o o' -> (0 <= gi_tid p < n_velocity m)%Z -> pstep sb p o = pstep sb p o'.
Proof.
  intros H Ht. destruct o as [v|v dt|v], o' as [v'|v' dt'|v']; cbn [op_eq] in H; try contradiction; cbn [pstep].
  - now rewrite (H _ Ht).
  - destruct H as [H ->]. now rewrite (H _ Ht).
  - now rewrite (H _ Ht).
Qed.
Lemma gl_tid m D r f loc k p : mfacts m D -> (0 <= f < m_dim m)%Z -> (0 <= loc < m_dim m * 2)%Z -> (0 <= r < nranks D)%Z ->
  In (k, p) (gl_points m D r f loc) -> (0 <= gi_tid p < n_velocity m)%Z.
Proof.
  intros F Hf Hl Hr Hin. destruct (gl_points_keys m D r f loc k) as [q ->]; [apply in_map_iff; exists (k, p); auto|].
  destruct (gl_points_info m D r f loc q p F Hf Hl Hr Hin) as (_ & E & _ & L & _). rewrite E. apply idx_range; auto.
  eapply local_interior; eauto. apply (mf_dec _ _ F); auto.
Qed.
Lemma sb_after_ext m D types values r f loc h h' : mfacts m D -> (0 <= f < m_dim m)%Z -> (0 <= loc < m_dim m * 2)%Z -> (0 <= r < nranks D)%Z ->
  (forall k p, types f loc <> PERIODIC -> In (k, p) (gl_points m D r f loc) ->
     fold_left (pstep (bsb m D types values r f loc)) h p = fold_left (pstep (bsb m D types values r f loc)) h' p) ->
  sb_after (bsb m D types values r f loc) h = sb_after (bsb m D types values r f loc) h'.
Proof.
  intros F Hf Hl Hr H. unfold sb_after. f_equal. apply map_ext_in. intros [k p] Hin. cbn [fst snd]. f_equal. rewrite bsb_points in Hin.
  destruct (types f loc) eqn:E; try (apply (H k); [discriminate|exact Hin]). destruct Hin.
Qed.
Lemma pure_ext m D types values r h h' : mfacts m D -> (0 <= r < nranks D)%Z ->
  (forall f loc k p, (0 <= f < m_dim m)%Z -> (0 <= loc < m_dim m * 2)%Z -> types f loc <> PERIODIC -> In (k, p) (gl_points m D r f loc) ->
     fold_left (pstep (bsb m D types values r f loc)) h p = fold_left (pstep (bsb m D types values r f loc)) h' p) ->
  pure_state m D types values r h = pure_state m D types values r h'.
Proof.
  intros F Hr H. unfold pure_state. apply map_ext_in. intros f Hf. apply zrange_In in Hf. apply map_ext_in. intros loc Hl. apply zrange_In in Hl.
  apply sb_after_ext; auto. intros; eapply H; eauto.
Qed.
Lemma pure_cong m D types values r h o o' : mfacts m D -> (0 <= r < nranks D)%Z -> op_eq m o o' ->
  pure_state m D types values r (h ++ [o]) = pure_state m D types values r (h ++ [o']).
Proof.
  intros F Hr Ho. apply pure_ext; auto. intros f loc k p Hf Hl _ Hin. rewrite !fold_left_app. cbn [fold_left]. apply pstep_cong with (m := m); auto.
  rewrite (geom_tid _ _ (psteps_geom _ _ _)). eapply gl_tid; eauto.
Qed.
Lemma after_same m D types values h B B' : boundary_after m D types values h B -> bc_same D B B' -> boundary_after m D types values h B'.
Proof. intros H E r Hr. rewrite <- (E r Hr). now apply H. Qed.
Lemma after_unique m D types values h B B' : mfacts m D -> bc_fits m types -> boundary_after m D types values h B -> boundary_after m D types values h B' -> bc_same D B B'.
Proof. intros F Hb H H' r Hr. rewrite (after_pure _ _ _ _ _ _ r F Hb H Hr), (after_pure _ _ _ _ _ _ r F Hb H' Hr). reflexivity. Qed.
Lemma bc_call_cong m D types values h B B' o o' B1 : mfacts m D -> bc_fits m types -> boundary_after m D types values h B -> bc_same D B B' -> op_eq m o o' ->
  bc_call m D o B = Ok B1 -> exists B1', bc_call m D o' B' = Ok B1' /\ bc_same D B1 B1' /\ boundary_after m D types values (h ++ [o]) B1.
Proof.
  intros F Hb H HS Ho E. destruct (bc_call_after m D types values h B' o' F Hb (after_same _ _ _ _ _ _ _ H HS)) as (B1' & E' & H').
  exists B1'. split; [exact E'|]. pose proof (bc_call_inv _ _ _ _ _ _ _ _ F Hb H E) as H1. split; [|exact H1].
  intros r Hr. rewrite (after_pure _ _ _ _ _ _ r F Hb H1 Hr), (after_pure _ _ _ _ _ _ r F Hb H' Hr). now apply pure_cong.
Qed.

(** Without convective boundaries the boundary object only depends on the last
    velocity it was refreshed with. *)
Lemma refreshed_state m D types values r h o v : mfacts m D -> bc_fits m types -> no_convective m types -> (0 <= r < nranks D)%Z ->
  has_ics h -> o = OpICs v \/ o = OpVals v ->
  pure_state m D types values r (h ++ [o]) = pure_state m D types values r [OpICs v].
Proof.
  intros F Hb Hc Hr Hi Ho. apply pure_ext; auto. intros f loc k p Hf Hl Hp Hin. rewrite fold_left_app. cbn [fold_left].
  set (sb := bsb m D types values r f loc). set (p1 := fold_left (pstep sb) h p).
  pose proof (steps_inv sb h p (or_intror Hi)) as I1. fold p1 in I1.
  pose proof (ics_inv sb p v) as I2.
  assert (G : geom p1 = geom p) by apply psteps_geom.
  destruct (Hb f loc Hf Hl) as [Hn _]. specialize (Hc f loc Hf Hl).
  assert (Ety : sb_type sb = types f loc) by (unfold sb, bsb; destruct (types f loc); reflexivity).
  assert (Ht : ghosted_type (sb_type sb)) by (rewrite Ety; unfold ghosted_type; destruct (types f loc); auto; contradiction).
  assert (Hcv : sb_type sb <> CONVECTIVE) by (rewrite Ety; exact Hc).
  pose proof (refreshed sb p1 o v Ho Hcv Ht) as V1. cbv zeta in V1.
  pose proof (refreshed sb p (OpICs v) v (or_introl eq_refl) Hcv Ht) as V2. cbv zeta in V2.
  pose proof (step_inv sb p1 o I1) as I1'. pose proof (pstep_geom sb p1 o) as G1. pose proof (pstep_geom sb p (OpICs v)) as G2. rewrite G in G1.
  unfold eqs_inv, dir_eq, neu_eq in I1', I2.
  assert (A : gi_a0 (pstep sb p1 o) = gi_a0 (pstep sb p (OpICs v)) /\ gi_a1 (pstep sb p1 o) = gi_a1 (pstep sb p (OpICs v))).
  { destruct Ht as [E|[E|E]]; rewrite E in I1', I2; [|  |contradiction].
    - destruct (_ =? _)%Z; destruct I1' as [-> ->], I2 as [-> ->]; auto.
    - destruct I1' as [-> ->], I2 as [-> ->]. rewrite (geom_dL _ _ G1), (geom_dL _ _ G2). auto. }
  destruct A as [A0 A1]. rewrite (geom_tid _ _ G1), A0, A1 in V1. rewrite (geom_tid _ _ G2) in V2. rewrite <- V2 in V1.
  revert G1 G2 A0 A1 V1. unfold geom. destruct (pstep sb p1 o) as [a1 a2 a3 a4 a5 a6 a7 a8], (pstep sb p (OpICs v)) as [b1 b2 b3 b4 b5 b6 b7 b8].
  cbn [gi_lcl gi_target gi_tid gi_area gi_dL gi_a0 gi_a1 gi_value]. intros G1 G2 -> -> ->. congruence.
Qed.

(** * Vectors *)
Lemma veq_refl n x : veq n x x. Proof. intros i _. reflexivity. Qed.
Lemma veq_sym n x y : veq n x y -> veq n y x. Proof. intros H i Hi. symmetry. now apply H. Qed.
Lemma veq_trans n x y z : veq n x y -> veq n y z -> veq n x z. Proof. intros H H' i Hi. rewrite H by auto. now apply H'. Qed.
Lemma veq_axpy n a x x' y y' : veq n x x' -> veq n y y' -> veq n (vaxpy y a x) (vaxpy y' a x').
Proof. intros H H' i Hi. unfold vaxpy. now rewrite H, H'. Qed.
Lemma veq_scale n a x x' : veq n x x' -> veq n (vscale a x) (vscale a x').
Proof. intros H i Hi. unfold vscale. now rewrite H. Qed.
Lemma veq_mvec n k A x x' : veq k x x' -> veq n (mvec k A x) (mvec k A x').
Proof. intros H i Hi. apply mvec_ext; auto. Qed.
Lemma Forall2_lenZ {A B} (R : A -> B -> Prop) l l' : Forall2 R l l' -> lenZ l = lenZ l'.
Proof. intros H. unfold lenZ. f_equal. induction H; cbn [length]; congruence. Qed.
Lemma Forall2_nthZ {A B} (R : A -> B -> Prop) l l' i x : Forall2 R l l' -> nthZ l i = Some x -> exists y, nthZ l' i = Some y /\ R x y.
Proof.
  intros H. revert i. induction H as [|a b t t' Hab Ht IH]; intros i Hi.
  - apply nthZ_Some_range in Hi. unfold lenZ in Hi. cbn in Hi. lia.
  - pose proof (nthZ_Some_range _ _ _ Hi). destruct (Z.eq_dec i 0) as [->|].
    + rewrite nthZ_cons_0 in *. injection Hi as <-. eauto.
    + rewrite nthZ_cons_pos in Hi by lia. rewrite nthZ_cons_pos by lia. apply IH. exact Hi.
Qed.
Lemma rotate_cong n l l' c : Forall2 (veq n) l l' -> rotate l = Ok c -> exists c', rotate l' = Ok c' /\ Forall2 (veq n) c c'.
Proof.
  intros H E. destruct l as [|z t] using rev_ind.
  - inversion H; subst. injection E as <-. exists []. split; [reflexivity|constructor].
  - clear IHt. apply Forall2_app_inv_l in H. destruct H as (t' & z' & Ht & Hz & ->). inversion Hz as [|? b ? ? Hb Hn]; subst. inversion Hn; subst.
    rewrite rotate_ok in *. injection E as <-. eexists. split; [reflexivity|]. constructor; auto.
Qed.
Lemma wr0_cong n l l' c c' k : Forall2 (veq n) l l' -> veq n c c' -> wr l 0 c = Ok k -> exists k', wr l' 0 c' = Ok k' /\ Forall2 (veq n) k k'.
Proof.
  intros H Hc E. destruct H as [|a b t t' Hab Ht]; [discriminate|]. pose proof (lenZ_nonneg t). pose proof (lenZ_nonneg t').
  unfold wr in *. rewrite lenZ_cons in *. replace ((0 <=? 0) && (0 <? 1 + lenZ t))%Z with true in E by lia. replace ((0 <=? 0) && (0 <? 1 + lenZ t'))%Z with true by lia.
  injection E as <-. eexists. split; [reflexivity|]. cbn. constructor; auto.
Qed.
Lemma slots_cong n l l' (newest newest' : res vec) k : Forall2 (veq n) l l' ->
  (forall c, newest = Ok c -> exists c', newest' = Ok c' /\ veq n c c') ->
  (if (0 <? lenZ l)%Z then do c <- newest; wr l 0 c else Ok l) = Ok k ->
  exists k', (if (0 <? lenZ l')%Z then do c <- newest'; wr l' 0 c else Ok l') = Ok k' /\ Forall2 (veq n) k k'.
Proof.
  intros H Hn E. rewrite <- (Forall2_lenZ _ _ _ H). destruct (0 <? lenZ l)%Z; [|injection E as <-; eauto].
  apply bind_ok_inv in E. destruct E as (c & Ec & E). destruct (Hn c Ec) as (c' & -> & Hc). cbn [bind]. eapply wr0_cong; eauto.
Qed.
Lemma add_terms_cong n coeffs h h' y y' z : Forall2 (veq n) h h' -> veq n y y' -> add_terms coeffs h y = Ok z ->
  exists z', add_terms coeffs h' y' = Ok z' /\ veq n z z'.
Proof.
  intros H Hy E. unfold add_terms in *. rewrite <- (Forall2_lenZ _ _ _ H). revert y y' Hy E. induction (zrange 0 (lenZ h)) as [|i t IH]; intros y y' Hy E.
  - injection E as <-. exists y'. auto.
  - cbn [foldM] in *. apply bind_ok_inv in E. destruct E as (y1 & E1 & E). apply bind_ok_inv in E1. destruct E1 as (c & Ec & E1). apply bind_ok_inv in E1. destruct E1 as (v & Ev & E1).
    injection E1 as <-. rewrite Ec. cbn [bind]. apply rd_Ok in Ev. destruct (Forall2_nthZ _ _ _ _ _ H Ev) as (v' & Ev' & Hv). apply rd_Ok in Ev'. rewrite Ev'. cbn [bind].
    apply IH with (y := vaxpy y c v); auto. now apply veq_axpy.
Qed.
Lemma mapM_ext_in {A B} (f g : A -> res B) l : (forall x, In x l -> f x = g x) -> mapM f l = mapM g l.
Proof. induction l as [|x t IH]; intros H; [reflexivity|]. cbn [mapM]. rewrite H by (now left). rewrite IH by (intros; apply H; now right). reflexivity. Qed.
Lemma correction_ext m D op B B' : bc_same D B B' -> correction_mult m (nranks D) op B = correction_mult m (nranks D) op B'.
Proof.
  intros H. unfold correction_mult, correction_events. do 2 f_equal.
  rewrite (mapM_ext_in _ (fun r => do ms <- rd (op_mods op) r; do pts <- rank_points (B' r) (m_dim m);
      Ok (map (fun fkp => let '(f, (key, p)) := fkp in let '(row, coeff) := mod_get ms f key in (row, coeff * gi_a1 p)) pts))); [reflexivity|].
  intros r Hr. apply zrange_In in Hr. now rewrite (H r Hr).
Qed.

(** * One step from two states that hold the same fields *)
Section Sim.
Variables (m : mesh) (D : dec) (P : nspar) (types : Z -> Z -> bctype) (values : Z -> Z -> R) (ops : nsops).
Variables (conv : boundary -> vec -> res vec) (vs ps : vec -> vec -> vec).
Hypotheses (F : mfacts m D) (Hb : bc_fits m types).
Hypotheses (Hcv : conv_respects m D conv) (Hvs : vsolve_respects (n_velocity m) vs) (Hps : psolve_respects (n_pressure m) ps).

Definition sim (s s' : nsstate) : Prop :=
  same_fields m s s' /\ bc_same D (s_bc s) (s_bc s') /\ exists h, has_ics h /\ boundary_after m D types values h (s_bc s).

Lemma advance_sim s s' t : sim s s' -> advance m D P ops conv vs ps s = Ok t ->
  exists t', advance m D P ops conv vs ps s' = Ok t' /\ sim t t'.
Proof.
  intros ((St & Si & SU & Sp & Sc & Sd) & SB & h & Hics & Hh) H. unfold advance, advance_with in *. cbv zeta in *.
  apply bind_ok_inv in H. destruct H as ([rhs1 s1] & E1 & H). apply bind_ok_inv in H. destruct H as (rhs2 & E2 & H). apply bind_ok_inv in H. destruct H as (B2 & EB2 & H).
  unfold assembleRHSVelocity, rhs_velocity in *. cbn [s_t s_ite s_U s_p s_dP s_conv s_diff s_bc] in *.
  apply bind_ok_inv in E1. destruct E1 as (cs0 & Ecs0 & E1). destruct (rotate_cong _ _ _ _ Sc Ecs0) as (cs0' & -> & Fcs0). cbn [bind].
  apply bind_ok_inv in E1. destruct E1 as (cs & Ecs & E1).
  assert (X : exists cs', (if (0 <? lenZ cs0')%Z then do c <- conv (s_bc s') (s_U s'); wr cs0' 0 (vscale (-1) c) else Ok cs0') = Ok cs' /\ Forall2 (veq (n_velocity m)) cs cs').
  { destruct (slots_cong (n_velocity m) cs0 cs0' (do c <- conv (s_bc s) (s_U s); Ok (vscale (-1) c)) (do c <- conv (s_bc s') (s_U s'); Ok (vscale (-1) c)) cs Fcs0) as (k' & Ek & Fk).
    - intros c Ec. apply bind_ok_inv in Ec. destruct Ec as (y & Ey & Ec). injection Ec as <-. destruct (Hcv _ _ _ _ _ SB SU Ey) as (y' & -> & Hy). cbn [bind].
      eexists. split; [reflexivity|]. now apply veq_scale.
    - rewrite <- Ecs. destruct (0 <? lenZ cs0)%Z; [|reflexivity]. destruct (conv (s_bc s) (s_U s)); reflexivity.
    - exists k'. split; [|exact Fk]. rewrite <- Ek. destruct (0 <? lenZ cs0')%Z; [|reflexivity]. destruct (conv (s_bc s') (s_U s')); reflexivity. }
  destruct X as (cs' & -> & Fcs). cbn [bind].
  apply bind_ok_inv in E1. destruct E1 as (r1 & Er1 & E1).
  match type of Er1 with add_terms _ _ ?y = _ => destruct (add_terms_cong (n_velocity m) (p_cexp P) cs cs' y
     (vaxpy (vscale (-1) (mvec (n_pressure m) (o_G ops) (s_p s'))) (1 / p_dt P) (s_U s')) r1 Fcs) as (r1' & -> & Hr1) end;
    [apply veq_axpy; auto; apply veq_scale; now apply veq_mvec|exact Er1|]. cbn [bind].
  apply bind_ok_inv in E1. destruct E1 as (ds0 & Eds0 & E1). destruct (rotate_cong _ _ _ _ Sd Eds0) as (ds0' & -> & Fds0). cbn [bind].
  apply bind_ok_inv in E1. destruct E1 as (ds & Eds & E1).
  assert (Y : exists ds', (if (0 <? lenZ ds0')%Z then do c <- correction_mult m (nranks D) (o_L ops) (s_bc s');
      wr ds0' 0 (vscale (p_nu P) (vaxpy c 1 (mvec (n_velocity m) (entry (op_log (o_L ops))) (s_U s')))) else Ok ds0') = Ok ds' /\ Forall2 (veq (n_velocity m)) ds ds').
  { rewrite <- (correction_ext m D (o_L ops) _ _ SB).
    destruct (slots_cong (n_velocity m) ds0 ds0'
       (do c <- correction_mult m (nranks D) (o_L ops) (s_bc s); Ok (vscale (p_nu P) (vaxpy c 1 (mvec (n_velocity m) (entry (op_log (o_L ops))) (s_U s)))))
       (do c <- correction_mult m (nranks D) (o_L ops) (s_bc s); Ok (vscale (p_nu P) (vaxpy c 1 (mvec (n_velocity m) (entry (op_log (o_L ops))) (s_U s'))))) ds Fds0) as (k' & Ek & Fk).
    - intros c Ec. apply bind_ok_inv in Ec. destruct Ec as (y & Ey & Ec). injection Ec as <-. rewrite Ey. cbn [bind].
      eexists. split; [reflexivity|]. apply veq_scale, veq_axpy; [now apply veq_mvec|apply veq_refl].
    - rewrite <- Eds. destruct (0 <? lenZ ds0)%Z; [|reflexivity]. destruct (correction_mult m (nranks D) (o_L ops) (s_bc s)); reflexivity.
    - exists k'. split; [|exact Fk]. rewrite <- Ek. destruct (0 <? lenZ ds0')%Z; [|reflexivity]. destruct (correction_mult m (nranks D) (o_L ops) (s_bc s)); reflexivity. }
  destruct Y as (ds' & -> & Fds). cbn [bind].
  apply bind_ok_inv in E1. destruct E1 as (r2 & Er2 & E1). destruct (add_terms_cong _ _ _ _ _ _ _ Fds Hr1 Er2) as (r2' & -> & Hr2). cbn [bind].
  apply bind_ok_inv in E1. destruct E1 as (B1 & EB1 & E1).
  destruct (bc_call_cong m D types values h _ _ (OpEqs (s_U s) (p_dt P)) (OpEqs (s_U s') (p_dt P)) _ F Hb Hh SB (conj SU eq_refl) EB1) as (B1' & -> & SB1 & Hh1). cbn [bind].
  apply bind_ok_inv in E1. destruct E1 as (c1 & Ec1 & E1). rewrite <- (correction_ext m D (o_L ops) _ _ SB1), Ec1. cbn [bind]. injection E1 as <- <-.
  cbn [s_t s_ite s_U s_p s_dP s_conv s_diff s_bc] in *.
  assert (V1 : veq (n_velocity m) (vs (s_U s) (vaxpy r2 (p_dimp P) (vscale (p_nu P) c1))) (vs (s_U s') (vaxpy r2' (p_dimp P) (vscale (p_nu P) c1)))).
  { apply Hvs; auto. apply veq_axpy; auto. apply veq_refl. }
  set (U1 := vs (s_U s) _) in *. set (U1' := vs (s_U s') _) in *. clearbody U1 U1'.
  unfold assembleRHSPoisson in *. rewrite <- (correction_ext m D (o_D ops) _ _ SB1).
  apply bind_ok_inv in E2. destruct E2 as (c2 & Ec2 & E2). rewrite Ec2. cbn [bind]. injection E2 as <-.
  match type of H with context [ps (s_dP s) ?b] => set (b1 := b) in * end. match goal with |- context [ps (s_dP s') ?b] => set (b2 := b) end.
  assert (Vb : veq (n_pressure m) b1 b2).
  { unfold b1, b2. destruct (p_refp P).
    - intros i Hi. destruct (i =? 0)%Z; [reflexivity|]. apply (veq_axpy (n_pressure m)); [now apply veq_mvec|apply veq_refl|exact Hi].
    - apply veq_axpy; [now apply veq_mvec|apply veq_refl]. }
  pose proof (Hps (s_dP s) (s_dP s') b1 b2 Vb) as VP. set (q1 := ps (s_dP s) b1) in *. set (q2 := ps (s_dP s') b2) in *. clearbody q1 q2 b1 b2.
  assert (VU : veq (n_velocity m) (vaxpy U1 (-1) (mvec (n_pressure m) (o_BNG ops) q1)) (vaxpy U1' (-1) (mvec (n_pressure m) (o_BNG ops) q2))).
  { apply veq_axpy; auto. now apply veq_mvec. }
  destruct (bc_call_cong m D types values _ _ _ (OpVals (vaxpy U1 (-1) (mvec (n_pressure m) (o_BNG ops) q1))) (OpVals (vaxpy U1' (-1) (mvec (n_pressure m) (o_BNG ops) q2))) _ F Hb Hh1 SB1 VU EB2) as (B2' & -> & SB2 & Hh2). cbn [bind].
  injection H as <-. eexists. split; [reflexivity|]. split; [|split].
  - unfold same_fields. cbn [s_t s_ite s_U s_p s_dP s_conv s_diff s_bc]. repeat split; auto; [rewrite St; reflexivity|rewrite Si; reflexivity|]. now apply veq_axpy.
  - exact SB2.
  - eexists. split; [|exact Hh2]. destruct Hics as [v0 Hv0]. exists v0. rewrite !in_app_iff. auto.
Qed.
Lemma steps_sim k s s' t : sim s s' -> ns_steps m D P ops conv vs ps k s = Ok t ->
  exists t', ns_steps m D P ops conv vs ps k s' = Ok t' /\ sim t t'.
Proof.
  intros HS. revert t. induction k as [|k IH]; intros t H; [injection H as <-; exists s'; auto|]. cbn [ns_steps] in *.
  apply bind_ok_inv in H. destruct H as (t1 & E & H). destruct (IH _ E) as (t1' & -> & HS1). cbn [bind]. eapply advance_sim; eauto.
Qed.
End Sim.

(** * Reading a file back *)
Lemma load_ok d path F nm l len : d path = Some F -> f_sets F nm = Some l -> lenZ l = len -> load d path nm len = Ok l.
Proof. intros H1 H2 H3. unfold load. rewrite H1, H2, H3, Z.eqb_refl. reflexivity. Qed.
Lemma solution_read_ok m D1 D2 path d U p F V q : mfacts m D1 -> mfacts m D2 -> d path = Some F -> holds_velocity m D1 U F -> holds_pressure m D1 p F ->
  exists U' p', solution_read m D2 path d V q = Ok (U', p') /\
    (forall f x i j, nthZ (packed_layout (m_dim m) D1) i = Some (f, x) -> nthZ (packed_layout (m_dim m) D2) j = Some (f, x) -> U' j = U i) /\
    (forall x i j, nthZ (field_layout D1 3) i = Some x -> nthZ (field_layout D2 3) j = Some x -> p' j = p i).
Proof.
  intros F1 F2 E Hv (lp & Ep & Lp & Hp). unfold solution_read.
  assert (X : exists ls, mapM (fun f => load d path (set_name f) (npoints (m_n m f))) (zrange 0 (m_dim m)) = Ok ls /\
    forall f, (0 <= f < m_dim m)%Z -> exists l, nthZ ls f = Some l /\ forall i x, nthZ (packed_layout (m_dim m) D1) i = Some (f, x) -> nthZ l (natural (m_n m f) x) = Some (U i)).
  { set (g := fun f => match f_sets F (set_name f) with Some l => l | None => [] end).
    exists (map g (zrange 0 (m_dim m))). split.
    - apply mapM_ok. intros f Hf. apply zrange_In in Hf. destruct (Hv f Hf) as (l & El & Ll & _). unfold g. rewrite El. eapply load_ok; eauto.
    - intros f Hf. exists (g f). rewrite nthZ_map, nthZ_zrange by lia. cbn [option_map]. rewrite Z.add_0_l. split; [reflexivity|].
      destruct (Hv f Hf) as (l & El & _ & Hl). unfold g. rewrite El. exact Hl. }
  destruct X as (ls & -> & Hls). cbn [bind]. rewrite (load_ok _ _ _ _ _ _ E Ep Lp). cbn [bind]. eexists. eexists. split; [reflexivity|]. split.
  - intros f x i j Hi Hj. destruct (layout_interior _ _ _ _ _ F1 Hi) as [Hf _]. rewrite packed_order_map, nthZ_map, Hj. cbn [option_map fst snd].
    destruct (Hls f Hf) as (l & -> & Hl). now rewrite (Hl _ _ Hi).
  - intros x i j Hi Hj. rewrite petsc_order_map, nthZ_map, Hj. cbn [option_map]. now rewrite (Hp _ _ Hi).
Qed.

Lemma load_history_ok m D path d F group (h h0 : list vec) : mfacts m D -> d path = Some F -> holds_slots m group h F -> lenZ h0 = lenZ h ->
  exists h', load_history m d path group h0 = Ok h' /\ Forall2 (veq (n_velocity m)) h h'.
Proof.
  intros HF E H L. unfold load_history. rewrite L.
  assert (G : forall (t t0 : list vec) a, length t0 = length t -> (forall i v, nthZ t i = Some v -> nthZ h (a + i) = Some v) ->
    exists h', mapM (fun iv => do l <- load d path (history_name group (fst iv)) (n_velocity m); Ok (fun i => match nthZ l i with Some x => x | None => snd iv i end))
      (combine (zrange a (a + lenZ t)) t0) = Ok h' /\ Forall2 (veq (n_velocity m)) t h').
  { induction t as [|v t IH]; intros t0 a Hl Ha.
    - destruct t0; [|discriminate]. exists []. rewrite combine_nil. split; [reflexivity|constructor].
    - destruct t0 as [|v0 t0]; [discriminate|]. pose proof (lenZ_nonneg t). rewrite lenZ_cons. rewrite zrange_cons by lia. cbn [combine mapM fst snd].
      destruct (H a v) as (l & El & Ll & Hv). { replace a with (a + 0)%Z at 1 by lia. apply Ha. apply nthZ_cons_0. }
      rewrite (load_ok _ _ _ _ _ _ E El Ll). cbn [bind].
      destruct (IH t0 (a + 1)%Z) as (h' & Eh & Fh). { now injection Hl. }
      { intros i w Hi. replace (a + 1 + i)%Z with (a + (i + 1))%Z by lia. apply Ha. pose proof (nthZ_Some_range _ _ _ Hi). rewrite nthZ_cons_pos by lia. rewrite <- Hi. f_equal. lia. }
      replace (a + (1 + lenZ t))%Z with (a + 1 + lenZ t)%Z by lia. rewrite Eh. cbn [bind]. eexists. split; [reflexivity|]. constructor; auto.
      intros i Hi. now rewrite (Hv i Hi). }
  destruct (G h h0 0%Z) as (h' & Eh & Fh). { unfold lenZ in L. lia. } { intros i v Hi. exact Hi. } exists h'. rewrite Z.add_0_l in Eh. split; auto.
Qed.

(** Reading the restart file of a state s on a freshly initialised solver. *)
Lemma read_restart_ok m D types values path d F s s0 h0 : mfacts m D -> bc_fits m types -> d path = Some F -> holds_solution m D s F -> holds_history m s F ->
  lenZ (s_conv s0) = lenZ (s_conv s) -> lenZ (s_diff s0) = lenZ (s_diff s) -> s_ite s0 = s_ite s -> boundary_after m D types values h0 (s_bc s0) ->
  exists s', read_restart m D path d s0 = Ok s' /\ same_fields m s s' /\ boundary_after m D types values (h0 ++ [OpICs (s_U s')]) (s_bc s').
Proof.
  intros HF Hb E (Hv & Hp & Ht) (Hc & Hd) Lc Ld Hi HB. unfold read_restart. rewrite E.
  destruct (solution_read_ok m D D path d (s_U s) (s_p s) F (s_U s0) (s_p s0) HF HF E Hv Hp) as (U' & p' & -> & HU & HP). cbn [bind]. rewrite Ht. cbn [bind].
  destruct (load_history_ok m D path d F _ _ _ HF E Hc Lc) as (cs & -> & Fc). cbn [bind].
  destruct (load_history_ok m D path d F _ _ _ HF E Hd Ld) as (ds & -> & Fd). cbn [bind].
  destruct (bc_call_after m D types values h0 _ (OpICs U') HF Hb HB) as (B' & -> & HB'). cbn [bind]. eexists. split; [reflexivity|]. split; [|exact HB'].
  unfold same_fields. cbn [s_t s_ite s_U s_p s_conv s_diff]. repeat split; auto.
  - intros i Hi2. destruct (velocity_ids m D i HF Hi2) as (f & x & Ex). symmetry. eapply HU; eauto.
  - intros i Hi2. destruct (pressure_ids m D i HF Hi2) as (x & Ex). symmetry. eapply HP; eauto.
Qed.

(** * Runs of the program *)
Lemma ns_init_step m D P types values t0 n0 n1 U0 p0 ops s0 : ns_init m D P types values t0 n0 U0 p0 = Ok (ops, s0) ->
  s_ite s0 = n0 /\
  ns_init m D P types values t0 n1 U0 p0 = Ok (ops, mkNS (s_t s0) n1 (s_U s0) (s_p s0) (s_dP s0) (s_conv s0) (s_diff s0) (s_bc s0)).
Proof.
  unfold ns_init. intros H. apply bind_ok_inv in H. destruct H as (bl & -> & H). cbn [bind]. apply bind_ok_inv in H. destruct H as (B & -> & H). cbn [bind].
  apply bind_ok_inv in H. destruct H as (o & -> & H). cbn [bind]. injection H as <- <-. auto.
Qed.

Section Main.
Variables (m : mesh) (D : dec) (P : nspar) (types : Z -> Z -> bctype) (values : Z -> Z -> R) (t0 : R) (U0 p0 : vec).
Variables (conv : boundary -> vec -> res vec) (vs ps : vec -> vec -> vec).
Hypotheses (F : mfacts m D) (Hb : bc_fits m types).

Definition fresh (s : nsstate) : Prop := exists h o, has_ics (h ++ [o]) /\ (h = [] /\ o = OpICs (s_U s) \/ has_ics h /\ (o = OpICs (s_U s) \/ o = OpVals (s_U s))) /\
  boundary_after m D types values (h ++ [o]) (s_bc s).
Lemma fresh_pure s r : no_convective m types -> fresh s -> (0 <= r < nranks D)%Z -> s_bc s r = pure_state m D types values r [OpICs (s_U s)].
Proof.
  intros Hc (h & o & _ & Ho & HB) Hr. rewrite (after_pure _ _ _ _ _ _ r F Hb HB Hr). destruct Ho as [[-> ->]|[Hh Ho]]; [reflexivity|]. now apply refreshed_state.
Qed.
Lemma fresh_step ops s s' : fresh s -> advance m D P ops conv vs ps s = Ok s' -> fresh s'.
Proof.
  intros (h & o & Hi & _ & HB) Ha. destruct (advance_inv _ _ _ _ _ _ _ _ _ Ha) as (rhs1 & s1 & rhs2 & _ & _ & B1 & _ & _ & _ & B2 & _).
  apply (bc_call_inv m D types values _ _ _ _ F Hb HB) in B1. apply (bc_call_inv m D types values _ _ _ _ F Hb B1) in B2.
  assert (Hi1 : has_ics ((h ++ [o]) ++ [OpEqs (s_U s) (p_dt P)])) by (destruct Hi as [v Hv]; exists v; rewrite in_app_iff; auto).
  exists ((h ++ [o]) ++ [OpEqs (s_U s) (p_dt P)]), (OpVals (s_U s')). split; [|split; [|exact B2]].
  - destruct Hi1 as [v Hv]. exists v. rewrite in_app_iff. auto.
  - right. auto.
Qed.
Lemma fresh_steps ops k s s' : fresh s -> ns_steps m D P ops conv vs ps k s = Ok s' -> fresh s'.
Proof.
  intros Hf. revert s'. induction k as [|k IH]; intros s' H; [injection H as <-; exact Hf|]. cbn [ns_steps] in H. apply bind_ok_inv in H. destruct H as (s1 & E & H).
  exact (fresh_step ops _ _ (IH _ E) H).
Qed.
Lemma init_fresh n0 ops s0 : ns_init m D P types values t0 n0 U0 p0 = Ok (ops, s0) -> fresh s0.
Proof.
  intros H. destruct (ns_init_inv _ _ _ _ _ _ _ _ _ _ _ F Hb H) as (B & HB & _ & ->). exists [], (OpICs U0). cbn [s_U s_bc app].
  split; [exists U0; now left|]. split; [left; auto|exact HB].
Qed.

(** What a successful run of the program consists of. *)
Lemma main_inv fuel conf mon d s2 d2 tr : ns_main fuel conf m D P types values t0 U0 p0 mon conv vs ps d = Ok (Some (s2, d2, tr)) ->
  exists ops s0 s1 w tr', ns_init m D P types values t0 (c_nstart conf) U0 p0 = Ok (ops, s0) /\
    io_initial conf m D s0 (run_ops (init_ops m conf) d) = Ok (s1, w) /\
    drive fuel conf m D mon (advance m D P ops conv vs ps) s1 (run_ops w (run_ops (init_ops m conf) d)) = Ok (Some (s2, d2, tr')) /\ tr = (c_nstart conf, w) :: tr' /\
    s_ite s1 = c_nstart conf /\ (c_nstart conf = 0%Z -> s1 = s0 /\ w = write_solution m D (solution_path (c_out conf) 0) s0) /\
    (c_nstart conf <> 0%Z -> w = []).
Proof.
  unfold ns_main. intros H. apply bind_ok_inv in H. destruct H as ([ops s0] & EI & H). cbv zeta in H. apply bind_ok_inv in H. destruct H as ([s1 w] & EIO & H).
  apply bind_ok_inv in H. destruct H as (r & ED & H). destruct r as [[[sa da] tra]|]; [|discriminate]. injection H as <- <- <-.
  destruct (ns_init_step _ _ _ _ _ _ _ (c_nstart conf) _ _ _ _ EI) as [Hi _].
  assert (X : s_ite s1 = c_nstart conf /\ (c_nstart conf = 0%Z -> s1 = s0 /\ w = write_solution m D (solution_path (c_out conf) 0) s0) /\ (c_nstart conf <> 0%Z -> w = [])).
  { unfold io_initial in EIO. rewrite Hi in EIO. destruct (Z.eqb_spec (c_nstart conf) 0) as [E|E].
    - injection EIO as <- <-. split; [exact Hi|]. split; [rewrite E; auto|contradiction].
    - apply bind_ok_inv in EIO. destruct EIO as (s' & ER & EIO). injection EIO as <- <-. split; [|split; [intros; contradiction|reflexivity]].
      unfold read_restart in ER. destruct (run_ops (init_ops m conf) d _); [|discriminate].
      apply bind_ok_inv in ER. destruct ER as ([U p] & _ & ER). apply bind_ok_inv in ER. destruct ER as (t & _ & ER). apply bind_ok_inv in ER. destruct ER as (cs & _ & ER).
      apply bind_ok_inv in ER. destruct ER as (ds & _ & ER). apply bind_ok_inv in ER. destruct ER as (B & _ & ER). injection ER as <-. exact Hi. }
  destruct X as (X1 & X2 & X3). exists ops, s0, s1, w, tra.
  split; [exact EI|]. split; [exact EIO|]. split; [exact ED|]. split; [now rewrite X1|]. auto.
Qed.
Lemma mapM_lenZ {A B} (f : A -> res B) l l' : mapM f l = Ok l' -> lenZ l' = lenZ l.
Proof. intros H. apply mapM_Forall2 in H. symmetry. eapply Forall2_lenZ; eauto. Qed.
Lemma combine_lenZ {A} (h : list A) a : lenZ (combine (zrange a (a + lenZ h)) h) = lenZ h.
Proof. unfold lenZ at 1. rewrite combine_length, zrange_length. unfold lenZ. lia. Qed.
Lemma start_fresh conf ops s0 d s1 w : ns_init m D P types values t0 (c_nstart conf) U0 p0 = Ok (ops, s0) -> io_initial conf m D s0 d = Ok (s1, w) ->
  fresh s1 /\ lenZ (s_conv s1) = lenZ (s_conv s0) /\ lenZ (s_diff s1) = lenZ (s_diff s0).
Proof.
  intros EI EIO. pose proof (init_fresh _ _ _ EI) as Hf. unfold io_initial in EIO. destruct (s_ite s0 =? 0)%Z; [injection EIO as <- <-; auto|].
  apply bind_ok_inv in EIO. destruct EIO as (s' & ER & EIO). injection EIO as <- <-.
  unfold read_restart in ER. destruct (d _); [|discriminate].
  apply bind_ok_inv in ER. destruct ER as ([U p] & _ & ER). apply bind_ok_inv in ER. destruct ER as (t & _ & ER). apply bind_ok_inv in ER. destruct ER as (cs & Ecs & ER).
  apply bind_ok_inv in ER. destruct ER as (ds & Eds & ER). apply bind_ok_inv in ER. destruct ER as (B & EB & ER). injection ER as <-. cbn [s_conv s_diff].
  split; [|split].
  - destruct Hf as (h & o & Hi & _ & HB). apply (bc_call_inv m D types values _ _ _ _ F Hb HB) in EB. exists (h ++ [o]), (OpICs U). cbn [s_U s_bc].
    split; [destruct Hi as [v Hv]; exists v; rewrite in_app_iff; auto|]. split; [right; auto|exact EB].
  - unfold load_history in Ecs. apply mapM_lenZ in Ecs. rewrite Ecs. exact (combine_lenZ (s_conv s0) 0).
  - unfold load_history in Eds. apply mapM_lenZ in Eds. rewrite Eds. exact (combine_lenZ (s_diff s0) 0).
Qed.
Lemma steps_slots ops k s s' : ns_steps m D P ops conv vs ps k s = Ok s' -> lenZ (s_conv s') = lenZ (s_conv s) /\ lenZ (s_diff s') = lenZ (s_diff s).
Proof.
  intros H. pose proof (history_conv m D P ops conv vs ps s k s' H) as [A _]. pose proof (history_diff m D P ops conv vs ps s k s' H) as [B _]. auto.
Qed.
Lemma mapM_in {A B} (f : A -> res B) l ys y : mapM f l = Ok ys -> In y ys -> exists x, In x l /\ f x = Ok y.
Proof.
  revert ys. induction l as [|a l IH]; intros ys H Hy; cbn [mapM] in H; [injection H as <-; destruct Hy|].
  apply bind_ok_inv in H. destruct H as (b & Eb & H). apply bind_ok_inv in H. destruct H as (bs & Ebs & H). injection H as <-.
  destruct Hy as [<-|Hy]; [exists a; cbn; auto|]. destruct (IH _ Ebs Hy) as (x & Hx & Ex). exists x. cbn. auto.
Qed.
Lemma mesh_write_paths mm path ops o : mesh_write mm path = Ok ops -> In o ops -> op_path o = path.
Proof.
  unfold mesh_write. intros H. apply bind_ok_inv in H. destruct H as (l & E & H). injection H as <-. intros Ho. apply in_concat in Ho. destruct Ho as (os & Hos & Ho).
  destruct (mapM_in _ _ _ _ E Hos) as (f & _ & Ef). apply bind_ok_inv in Ef. destruct Ef as (cs & Ec & Ef). injection Ef as <-.
  cbn [app] in Ho. destruct Ho as [<-|Ho]; [now destruct (f =? 0)%Z|]. apply in_app_iff in Ho. destruct Ho as [Ho|[<-|[]]]; [|reflexivity].
  destruct (mapM_in _ _ _ _ Ec Ho) as (d & _ & Ed). apply bind_ok_inv in Ed. destruct Ed as (c & _ & Ed). injection Ed as <-. reflexivity.
Qed.
Lemma init_ops_paths mm conf o : In o (init_ops mm conf) -> op_path o = grid_path (c_out conf) \/ op_path o = iterations_path (c_out conf) (c_nstart conf).
Proof.
  unfold init_ops. intros Ho. apply in_app_iff in Ho. destruct Ho as [Ho|[<-|[]]]; [left|right; reflexivity].
  destruct (mesh_write mm _) as [ops| |] eqn:E; [|destruct Ho|destruct Ho]. exact (mesh_write_paths _ _ _ _ E Ho).
Qed.
Lemma grid_not_solution out n : (0 <= n)%Z -> grid_path out <> solution_path out n.
Proof.
  intros Hn E. unfold grid_path, solution_path in E. apply str_app_inj_l in E. cbn [String.append] in E. injection E as E. change "grid.h5"%string with (String.append "grid" ".h5") in E.
  apply str_app_inj_r' in E. pose proof (step_name_digits n Hn) as Hd. rewrite <- E in Hd. cbn in Hd. lia.
Qed.
Lemma init_ops_other mm conf d n : (0 <= n)%Z -> run_ops (init_ops mm conf) d (solution_path (c_out conf) n) = d (solution_path (c_out conf) n).
Proof.
  intros Hn. apply run_other. intros o Ho. destruct (init_ops_paths _ _ _ Ho) as [-> | ->]; [now apply grid_not_solution|apply iterations_not_solution].
Qed.
Lemma start_other conf s0 d s1 w n : s_ite s0 = c_nstart conf -> io_initial conf m D s0 d = Ok (s1, w) -> (0 <= n)%Z -> (0 <= c_nstart conf)%Z ->
  (n <> 0%Z \/ c_nstart conf <> 0%Z) -> forall d0, run_ops w d0 (solution_path (c_out conf) n) = d0 (solution_path (c_out conf) n).
Proof.
  intros Hi E Hn Hs Ho d0. unfold io_initial in E. destruct (Z.eqb_spec (s_ite s0) 0) as [E0|E0].
  - injection E as <- <-. apply run_other. intros o Hin Hp. rewrite (write_solution_paths _ _ _ _ _ Hin) in Hp. apply solution_path_inj in Hp; [|lia|lia]. lia.
  - apply bind_ok_inv in E. destruct E as (s' & _ & E). injection E as <- <-. reflexivity.
Qed.

(** Restarting from a file that holds the state after k steps. *)
Lemma restart_from_file ops s0 start k sk j sA conf fuel mon d' Fl : no_convective m types ->
  conv_respects m D conv -> vsolve_respects (n_velocity m) vs -> psolve_respects (n_pressure m) ps ->
  forall n0, ns_init m D P types values t0 n0 U0 p0 = Ok (ops, s0) -> fresh start ->
  lenZ (s_conv start) = lenZ (s_conv s0) -> lenZ (s_diff start) = lenZ (s_diff s0) ->
  ns_steps m D P ops conv vs ps k start = Ok sk -> ns_steps m D P ops conv vs ps (k + j) start = Ok sA ->
  c_nstart conf = s_ite sk -> (0 < s_ite sk)%Z -> c_nt conf = Z.of_nat j -> c_nsave conf <> 0%Z -> c_nrestart conf <> 0%Z -> (j <= fuel)%nat ->
  d' (solution_path (c_out conf) (s_ite sk)) = Some Fl -> holds_solution m D sk Fl -> holds_history m sk Fl ->
  exists s2 d2 tr2, ns_main fuel conf m D P types values t0 U0 p0 mon conv vs ps d' = Ok (Some (s2, d2, tr2)) /\ same_fields m sA s2.
Proof.
  intros Hnc Hcv Hvs Hps n0 EI Hf Lc Ld Ek EA Hst Hpos Hnt Hsv Hrs Hfu EF HS HH.
  destruct (ns_init_step _ _ _ _ _ _ _ (c_nstart conf) _ _ _ _ EI) as [_ EI2].
  set (s0' := mkNS (s_t s0) (c_nstart conf) (s_U s0) (s_p s0) (s_dP s0) (s_conv s0) (s_diff s0) (s_bc s0)) in EI2.
  unfold ns_main. rewrite EI2. cbn [bind]. cbv zeta.
  destruct (ns_init_inv _ _ _ _ _ _ _ _ _ _ _ F Hb EI2) as (B0 & HB0 & _ & E0). assert (HBs : boundary_after m D types values [OpICs U0] (s_bc s0')) by (rewrite E0; exact HB0).
  destruct (steps_slots _ _ _ _ Ek) as [Lck Ldk].
  set (d1 := run_ops (init_ops m conf) d').
  assert (EF1 : d1 (solution_path (c_out conf) (s_ite sk)) = Some Fl) by (unfold d1; rewrite init_ops_other by lia; exact EF).
  destruct (read_restart_ok m D types values (solution_path (c_out conf) (s_ite sk)) d1 Fl sk s0' [OpICs U0] F Hb EF1 HS HH) as (s' & ER & SF & HB'); try exact HBs.
  { cbn [s0' s_conv]. lia. } { cbn [s0' s_diff]. lia. } { exact Hst. }
  assert (EIO : io_initial conf m D s0' d1 = Ok (s', [])).
  { unfold io_initial. replace (s_ite s0') with (s_ite sk) by (symmetry; exact Hst). destruct (Z.eqb_spec (s_ite sk) 0) as [C|C]; [lia|]. rewrite ER. reflexivity. }
  rewrite EIO. cbn [bind]. change (run_ops [] d1) with d1.
  assert (Hfk : fresh sk) by (eapply fresh_steps; eauto).
  assert (Hi' : s_ite s' = s_ite sk) by (destruct SF as (_ & E & _); congruence).
  assert (SIM : sim m D types values sk s').
  { split; [exact SF|]. split.
    - intros r Hr. rewrite (fresh_pure sk r Hnc Hfk Hr). rewrite (after_pure _ _ _ _ _ _ r F Hb HB' Hr).
      rewrite (refreshed_state m D types values r [OpICs U0] (OpICs (s_U s')) (s_U s') F Hb Hnc Hr); [|exists U0; now left|now left].
      apply (pure_cong m D types values r [] (OpICs (s_U sk)) (OpICs (s_U s')) F Hr). destruct SF as (_ & _ & HU & _). exact HU.
    - destruct Hfk as (h & o & Hi & _ & HB). exists (h ++ [o]). auto. }
  assert (Ej : ns_steps m D P ops conv vs ps j sk = Ok sA).
  { rewrite (steps_add m D P ops conv vs ps k j start) in EA. rewrite Ek in EA. exact EA. }
  destruct (steps_sim m D P types values ops conv vs ps F Hb Hcv Hvs Hps j sk s' sA SIM Ej) as (t' & Et' & (SF' & _)).
  assert (Htodo : todo conf s' = j) by (unfold todo; lia).
  destruct (drive_total m D P ops conv vs ps conf mon fuel s' d1) as (s2 & d2 & tr & EDr); [lia|auto|auto|rewrite Htodo; eauto|].
  rewrite EDr. cbn [bind]. exists s2. eexists. eexists. split; [reflexivity|].
  destruct (drive_inv m D P ops conv vs ps conf mon fuel s' d1 s2 d2 tr EDr) as (Es2 & _). rewrite Htodo in Es2. rewrite Es2 in Et'. injection Et' as ->. exact SF'.
Qed.
End Main.
