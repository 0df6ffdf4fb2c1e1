From Coq Require Import ZifyBool String.
From Verif Require Import Prelude ZSum RSum TypesModel GridModel GridSpec GridProof MeshProof
  IndexModel IndexSpec IndexProof BoundaryModel BoundarySpec BoundaryProof OperatorModel OperatorSpec OperatorProof BStateProof LapProof AdjProof
  MatModel BnModel NSModel NSSpec NSProof NSTotal NameModel NameProof DriverModel DriverSpec DriverProof DriveProof RestartProof
  BodyModel BodySpec BodyProof DeltaModel DeltaSpec IbpmModel IbpmSpec IbpmProof IbpmDec IbpmMove IbOutModel.
Local Open Scope R_scope.

(** * One step from two states that hold the same fields *)
Section Sim.
Variables (m : mesh) (D : dec) (P : nspar) (types : Z -> Z -> bctype) (values : Z -> Z -> R).
Variables (conv : boundary -> vec -> res vec) (vs : vec -> vec -> vec).
Hypotheses (F : mfacts m D) (Hb : bc_fits m types).
Hypotheses (Hcv : conv_respects m D conv) (Hvs : vsolve_respects (n_velocity m) vs).
Local Notation nv := (n_velocity m).

(** Same fields, the pressure vector having n entries. *)
Definition same_n (n : Z) (s s' : nsstate) : Prop :=
  s_t s = s_t s' /\ s_ite s = s_ite s' /\ veq nv (s_U s) (s_U s') /\ veq n (s_p s) (s_p s') /\
  Forall2 (veq nv) (s_conv s) (s_conv s') /\ Forall2 (veq nv) (s_diff s) (s_diff s').
Definition simn (n : Z) (s s' : nsstate) : Prop :=
  same_n n s s' /\ bc_same D (s_bc s) (s_bc s') /\ exists h, has_ics h /\ boundary_after m D types values h (s_bc s).

Lemma begun_sim n s s' : simn n s s' -> simn n (begun P s) (begun P s').
Proof.
  intros ((St & Si & SU & Sp & Sc & Sd) & SB & X). split; [|split; [exact SB|exact X]]. unfold same_n, begun. cbn [s_t s_ite s_U s_p s_conv s_diff].
  repeat split; auto; congruence.
Qed.
Lemma ics_app h o : has_ics h -> has_ics (h ++ o).
Proof. intros [v Hv]. exists v. rewrite in_app_iff. auto. Qed.

Lemma rhs_sim n ops s s' rhs1 s1 : simn n s s' -> rhs_velocity n m D P ops conv s = Ok (rhs1, s1) ->
  exists rhs1' s1', rhs_velocity n m D P ops conv s' = Ok (rhs1', s1') /\ veq nv rhs1 rhs1' /\ simn n s1 s1'.
Proof.
  intros ((St & Si & SU & Sp & Sc & Sd) & SB & h & Hics & Hh) E1. unfold rhs_velocity in *.
  apply bind_ok_inv in E1. destruct E1 as (cs0 & Ecs0 & E1). destruct (rotate_cong _ _ _ _ Sc Ecs0) as (cs0' & -> & Fcs0). cbn [bind].
  apply bind_ok_inv in E1. destruct E1 as (cs & Ecs & E1).
  assert (X : exists cs', (if (0 <? lenZ cs0')%Z then do c <- conv (s_bc s') (s_U s'); wr cs0' 0 (vscale (-1) c) else Ok cs0') = Ok cs' /\ Forall2 (veq nv) cs cs').
  { destruct (slots_cong nv cs0 cs0' (do c <- conv (s_bc s) (s_U s); Ok (vscale (-1) c)) (do c <- conv (s_bc s') (s_U s'); Ok (vscale (-1) c)) cs Fcs0) as (k' & Ek & Fk).
    - intros c Ec. apply bind_ok_inv in Ec. destruct Ec as (y & Ey & Ec). injection Ec as <-. destruct (Hcv _ _ _ _ _ SB SU Ey) as (y' & -> & Hy). cbn [bind].
      eexists. split; [reflexivity|]. now apply veq_scale.
    - rewrite <- Ecs. destruct (0 <? lenZ cs0)%Z; [|reflexivity]. destruct (conv (s_bc s) (s_U s)); reflexivity.
    - exists k'. split; [|exact Fk]. rewrite <- Ek. destruct (0 <? lenZ cs0')%Z; [|reflexivity]. destruct (conv (s_bc s') (s_U s')); reflexivity. }
  destruct X as (cs' & -> & Fcs). cbn [bind].
  apply bind_ok_inv in E1. destruct E1 as (r1 & Er1 & E1).
  match type of Er1 with add_terms _ _ ?y = _ => destruct (add_terms_cong nv (p_cexp P) cs cs' y
     (vaxpy (vscale (-1) (mvec n (o_G ops) (s_p s'))) (1 / p_dt P) (s_U s')) r1 Fcs) as (r1' & -> & Hr1) end;
    [apply veq_axpy; auto; apply veq_scale; now apply veq_mvec|exact Er1|]. cbn [bind].
  apply bind_ok_inv in E1. destruct E1 as (ds0 & Eds0 & E1). destruct (rotate_cong _ _ _ _ Sd Eds0) as (ds0' & -> & Fds0). cbn [bind].
  apply bind_ok_inv in E1. destruct E1 as (ds & Eds & E1).
  assert (Y : exists ds', (if (0 <? lenZ ds0')%Z then do c <- correction_mult m (nranks D) (o_L ops) (s_bc s');
      wr ds0' 0 (vscale (p_nu P) (vaxpy c 1 (mvec nv (entry (op_log (o_L ops))) (s_U s')))) else Ok ds0') = Ok ds' /\ Forall2 (veq nv) ds ds').
  { rewrite <- (correction_ext m D (o_L ops) _ _ SB).
    destruct (slots_cong nv ds0 ds0'
       (do c <- correction_mult m (nranks D) (o_L ops) (s_bc s); Ok (vscale (p_nu P) (vaxpy c 1 (mvec nv (entry (op_log (o_L ops))) (s_U s)))))
       (do c <- correction_mult m (nranks D) (o_L ops) (s_bc s); Ok (vscale (p_nu P) (vaxpy c 1 (mvec nv (entry (op_log (o_L ops))) (s_U s'))))) ds Fds0) as (k' & Ek & Fk).
    - intros c Ec. apply bind_ok_inv in Ec. destruct Ec as (y & Ey & Ec). injection Ec as <-. rewrite Ey. cbn [bind].
      eexists. split; [reflexivity|]. apply veq_scale, veq_axpy; [now apply veq_mvec|apply veq_refl].
    - rewrite <- Eds. destruct (0 <? lenZ ds0)%Z; [|reflexivity]. destruct (correction_mult m (nranks D) (o_L ops) (s_bc s)); reflexivity.
    - exists k'. split; [|exact Fk]. rewrite <- Ek. destruct (0 <? lenZ ds0')%Z; [|reflexivity]. destruct (correction_mult m (nranks D) (o_L ops) (s_bc s)); reflexivity. }
  destruct Y as (ds' & -> & Fds). cbn [bind].
  apply bind_ok_inv in E1. destruct E1 as (r2 & Er2 & E1). destruct (add_terms_cong _ _ _ _ _ _ _ Fds Hr1 Er2) as (r2' & -> & Hr2). cbn [bind].
  apply bind_ok_inv in E1. destruct E1 as (B1 & EB1 & E1).
  destruct (bc_call_cong m D types values h _ _ (OpEqs (s_U s) (p_dt P)) (OpEqs (s_U s') (p_dt P)) _ F Hb Hh SB (conj SU eq_refl) EB1) as (B1' & -> & SB1 & Hh1). cbn [bind].
  apply bind_ok_inv in E1. destruct E1 as (c1 & Ec1 & E1). rewrite <- (correction_ext m D (o_L ops) _ _ SB1), Ec1. cbn [bind]. injection E1 as <- <-.
  eexists. eexists. split; [reflexivity|]. split; [apply veq_axpy; auto; apply veq_refl|]. split; [|split; [exact SB1|]].
  - unfold same_n. cbn [s_t s_ite s_U s_p s_conv s_diff]. auto 10.
  - eexists. split; [|exact Hh1]. now apply ics_app.
Qed.
Lemma vals_sim U U' B B' h B2 : bc_same D B B' -> has_ics h -> boundary_after m D types values h B -> veq nv U U' -> bc_call m D (OpVals U) B = Ok B2 ->
  exists B2', bc_call m D (OpVals U') B' = Ok B2' /\ bc_same D B2 B2' /\ exists h2, has_ics h2 /\ boundary_after m D types values h2 B2.
Proof.
  intros SB Hi Hh SU E. destruct (bc_call_cong m D types values h _ _ (OpVals U) (OpVals U') _ F Hb Hh SB SU E) as (B2' & E' & SB2 & H2).
  exists B2'. split; [exact E'|]. split; [exact SB2|]. eexists. split; [|exact H2]. now apply ics_app.
Qed.

(** * The coupled solver *)
Lemma ib_sim ps O s s' t : psolve_respects (ib_n O) ps ->
  simn (ib_n O) s s' -> ib_advance m D P O conv vs ps s = Ok t -> exists t', ib_advance m D P O conv vs ps s' = Ok t' /\ simn (ib_n O) t t'.
Proof.
  intros Hps HS H. pose proof (begun_sim _ _ _ HS) as HS0. unfold ib_advance, advance_with in *. cbv zeta in *. fold (begun P s) in H. fold (begun P s').
  apply bind_ok_inv in H. destruct H as ([rhs1 s1] & E1 & H). destruct (rhs_sim _ _ _ _ _ _ HS0 E1) as (rhs1' & s1' & -> & Vr & HS1). cbn [bind].
  destruct HS1 as ((T1 & I1 & U1 & P1 & C1 & D1) & SB1 & h1 & Hi1 & Hh1).
  apply bind_ok_inv in H. destruct H as (rhs2 & E2 & H). apply bind_ok_inv in H. destruct H as (B2 & EB2 & H).
  pose proof (Hvs _ _ _ _ U1 Vr) as V1. set (W := vs (s_U s1) rhs1) in *. set (W' := vs (s_U s1') rhs1') in *. clearbody W W'.
  unfold ib_assembleRHSPoisson in *. rewrite <- (correction_ext m D (o_D (ib_ns O)) _ _ SB1). cbv zeta in *.
  apply bind_ok_inv in E2. destruct E2 as (c2 & Ec2 & E2). rewrite Ec2. cbn [bind].
  match goal with |- context [ps (s_dP s1') ?b] => set (b2 := b) end.
  assert (Vb : veq (ib_n O) rhs2 b2).
  { injection E2 as <-. unfold b2. intros i Hi. assert (M : mvec nv (ib_D O) W i = mvec nv (ib_D O) W' i) by (apply mvec_ext; [reflexivity|exact V1]).
    assert (G : forall z z' : R, z = z' -> (match nthZ (ib_lay O) i with Some (b, k) => if (b =? 0)%Z then z + c2 k else z | None => z end) =
                                          (match nthZ (ib_lay O) i with Some (b, k) => if (b =? 0)%Z then z' + c2 k else z' | None => z' end)) by (intros z z' ->; reflexivity).
    destruct (p_refp P); [destruct (i =? 0)%Z; [reflexivity|]|]; exact (G _ _ M). }
  clearbody b2. pose proof (Hps (s_dP s1) (s_dP s1') rhs2 b2 Vb) as VP. set (q1 := ps (s_dP s1) rhs2) in *. set (q2 := ps (s_dP s1') b2) in *. clearbody q1 q2.
  assert (VU : veq nv (vaxpy W (-1) (mvec (ib_n O) (o_BNG (ib_ns O)) q1)) (vaxpy W' (-1) (mvec (ib_n O) (o_BNG (ib_ns O)) q2))) by (apply veq_axpy; auto; now apply veq_mvec).
  destruct (vals_sim _ _ _ _ h1 _ SB1 Hi1 Hh1 VU EB2) as (B2' & -> & SB2 & X). cbn [bind]. injection H as <-. eexists. split; [reflexivity|].
  split; [|split; [exact SB2|exact X]]. unfold same_n. cbn [s_t s_ite s_U s_p s_conv s_diff]. repeat split; auto. now apply veq_axpy.
Qed.

(** * The decoupled solver *)
Definition simd (nf : Z) (x x' : dstate) : Prop := simn (n_pressure m) (x_ns x) (x_ns x') /\ veq nf (x_f x) (x_f x').
Lemma d_sim ps fs O X nf rf rf' x x' t : psolve_respects (n_pressure m) ps -> psolve_respects nf fs ->
  (forall U U', veq nv U U' -> veq nf (rf U) (rf' U')) -> simd nf x x' ->
  d_advance m D P O X nf conv rf vs ps fs x = Ok t -> exists t', d_advance m D P O X nf conv rf' vs ps fs x' = Ok t' /\ simd nf t t'.
Proof.
  intros Hps Hfs Hrf [HS HF] H. pose proof (begun_sim _ _ _ HS) as HS0. unfold d_advance, d_assembleRHSVelocity, assembleRHSVelocity in *. cbv zeta in *.
  fold (begun P (x_ns x)) in H. fold (begun P (x_ns x')).
  apply bind_ok_inv in H. destruct H as ([rhs1 s1] & E1 & H). apply bind_ok_inv in E1. destruct E1 as ([rhs0 s1a] & E0 & E1). injection E1 as <- <-.
  destruct (rhs_sim _ _ _ _ _ _ HS0 E0) as (rhs0' & s1' & -> & Vr & HS1). cbn [bind].
  destruct HS1 as ((T1 & I1 & U1 & P1 & C1 & D1) & SB1 & h1 & Hi1 & Hh1).
  apply bind_ok_inv in H. destruct H as (rhs2 & E2 & H). apply bind_ok_inv in H. destruct H as (B2 & EB2 & H).
  assert (V1 : veq nv (vs (s_U s1a) (vaxpy rhs0 1 (mvec nf (di_H X) (x_f x)))) (vs (s_U s1') (vaxpy rhs0' 1 (mvec nf (di_H X) (x_f x'))))).
  { apply Hvs; auto. apply veq_axpy; auto. now apply veq_mvec. }
  set (W := vs (s_U s1a) _) in *. set (W' := vs (s_U s1') _) in *. clearbody W W'.
  pose proof (Hfs (x_df x) (x_df x') (rf W) (rf' W') (Hrf _ _ V1)) as VF. set (g1 := fs (x_df x) (rf W)) in *. set (g2 := fs (x_df x') (rf' W')) in *. clearbody g1 g2.
  assert (V2 : veq nv (vaxpy W 1 (mvec nf (di_BNH X) g1)) (vaxpy W' 1 (mvec nf (di_BNH X) g2))) by (apply veq_axpy; auto; now apply veq_mvec).
  set (Y := vaxpy W 1 _) in *. set (Y' := vaxpy W' 1 _) in *. clearbody Y Y'.
  unfold assembleRHSPoisson in *. rewrite <- (correction_ext m D (o_D O) _ _ SB1).
  apply bind_ok_inv in E2. destruct E2 as (c2 & Ec2 & E2). rewrite Ec2. cbn [bind]. injection E2 as <-.
  match type of H with context [ps (s_dP s1a) ?b] => set (b1 := b) in * end. match goal with |- context [ps (s_dP s1') ?b] => set (b2 := b) end.
  assert (Vb : veq (n_pressure m) b1 b2).
  { unfold b1, b2. destruct (p_refp P).
    - intros i Hi. destruct (i =? 0)%Z; [reflexivity|]. apply (veq_axpy (n_pressure m)); [now apply veq_mvec|apply veq_refl|exact Hi].
    - apply veq_axpy; [now apply veq_mvec|apply veq_refl]. }
  pose proof (Hps (s_dP s1a) (s_dP s1') b1 b2 Vb) as VP. set (q1 := ps (s_dP s1a) b1) in *. set (q2 := ps (s_dP s1') b2) in *. clearbody q1 q2 b1 b2.
  assert (VU : veq nv (vaxpy Y (-1) (mvec (n_pressure m) (o_BNG O) q1)) (vaxpy Y' (-1) (mvec (n_pressure m) (o_BNG O) q2))) by (apply veq_axpy; auto; now apply veq_mvec).
  destruct (vals_sim _ _ _ _ h1 _ SB1 Hi1 Hh1 VU EB2) as (B2' & -> & SB2 & XX). cbn [bind]. injection H as <-. eexists. split; [reflexivity|].
  split; cbn [x_ns x_f]; [|now apply veq_axpy]. split; [|split; [exact SB2|exact XX]]. unfold same_n. cbn [s_t s_ite s_U s_p s_conv s_diff]. repeat split; auto. now apply veq_axpy.
Qed.
End Sim.
