(** The program of the API example takes the steps of the solver. *)
From Coq Require Import Ascii String Permutation ZifyBool Lia Lra FunctionalExtensionality List.
Import ListNotations.
From Verif Require Import Prelude ZSum RSum TypesModel GridModel GridSpec GridProof IndexModel IndexSpec BoundaryModel BoundarySpec BoundaryProof
  OperatorModel OperatorSpec MatModel BnModel SolutionModel ConvModel DeltaModel ProbeModel NSModel NSSpec NSProof NSTotal NameModel DriverModel DriverSpec DriverProof DriverProps
  ConfigModel ConfigSpec ConfigProof ConfigSetup ConfigInit ConfigUse ConfigProps XdmfProps ProgModel ProgSpec ProgProof ProgRun ApiModel.
Local Open Scope R_scope.

(** The solver's parameters: explicit Euler for convection, implicit Euler for
    diffusion, first-order inverse, null space. *)
Definition api_par : nspar := mkPar (1 / 100) (1 / 100) 1 [1] 1 [] false.

Lemma api_operators_eq m D B : api_operators m D B = createOperators m D B api_par.
Proof.
  unfold api_operators, createOperators. cbn [api_par p_dt p_nu p_bn p_dimp p_refp]. unfold api_nu, api_dt.
  replace (- (1) * (1 / 100)) with (- (1 / 100)) by ring. rewrite Rmult_1_l. reflexivity.
Qed.

Definition matches (a : apistate) (s : nsstate) : Prop :=
  s_U s = a_U a /\ s_p s = a_p a /\ s_dP s = a_dP a /\ s_bc s = a_bc a /\ (exists h, s_conv s = [h]) /\ s_diff s = [].

Lemma api_step_advance m D O vs ps a s s' : matches a s -> advance m D api_par O (convection m D) vs ps s = Ok s' ->
  exists a', api_step m D O vs ps a = Ok a' /\ matches a' s'.
Proof.
  intros (EU & Ep & Ed & Eb & (h & Eh) & Ediff) H. unfold advance, advance_with in H. cbn [s_U s_p s_dP s_conv s_diff s_bc s_t s_ite] in H.
  apply bind_ok_inv in H. destruct H as ((rhs & s1) & Hr & H). unfold assembleRHSVelocity, rhs_velocity in Hr. cbn [s_U s_p s_dP s_conv s_diff s_bc s_t s_ite] in Hr.
  rewrite EU, Ep, Ed, Eb, Eh, Ediff in Hr. change (rotate [h]) with (Ok [h]) in Hr. change (rotate []) with (@Ok (list vec) []) in Hr. cbn [bind] in Hr.
  change (0 <? lenZ [h])%Z with true in Hr. change (0 <? lenZ (@nil vec))%Z with false in Hr. cbv iota in Hr.
  unfold api_step. destruct (convection m D (a_bc a) (a_U a)) as [c| |]; try discriminate Hr. cbn [bind] in Hr |- *.
  change (wr [h] 0 (vscale (-1) c)) with (Ok [vscale (-1) c]) in Hr. cbn [bind] in Hr.
  change (p_cexp api_par) with [1] in Hr. change (p_dexp api_par) with (@nil R) in Hr. change (p_dt api_par) with (1 / 100) in Hr. change (p_nu api_par) with (1 / 100) in Hr. change (p_dimp api_par) with 1 in Hr.
  unfold add_terms in Hr. change (zrange 0 (lenZ [vscale (-1) c])) with [0%Z] in Hr. change (zrange 0 (lenZ (@nil vec))) with (@nil Z) in Hr.
  cbn [foldM] in Hr. change (Prelude.rd [1] 0) with (Ok 1) in Hr. change (Prelude.rd [vscale (-1) c] 0) with (Ok (vscale (-1) c)) in Hr. cbn [bind foldM] in Hr.
  change api_dt with (1 / 100). destruct (bc_call m D (OpEqs (a_U a) (1 / 100)) (a_bc a)) as [B1| |]; try discriminate Hr. cbn [bind] in Hr |- *.
  destruct (correction_mult m (nranks D) (o_L O) B1) as [l| |]; try discriminate Hr. cbn [bind] in Hr |- *. injection Hr as <- <-. cbn [s_U s_p s_dP s_conv s_diff s_bc s_t s_ite] in H.
  match goal with |- context [vs (a_U a) ?r] => match type of H with context [vs (a_U a) ?r'] => replace r' with r in H end end.
  2:{ extensionality i. unfold vaxpy, vscale, api_nu. field. }
  match goal with |- context [vs (a_U a) ?r] => set (U1 := vs (a_U a) r) in * end.
  unfold assembleRHSPoisson in H. change (p_refp api_par) with false in H. cbv iota in H.
  destruct (correction_mult m (nranks D) (o_D O) B1) as [c2| |]; try discriminate H. cbn [bind] in H |- *.
  match goal with |- context [ps (a_dP a) ?r] => match type of H with context [ps (a_dP a) ?r'] => replace r' with r in H end end.
  2:{ extensionality i. unfold vaxpy. ring. }
  match goal with |- context [ps (a_dP a) ?r] => set (dP := ps (a_dP a) r) in * end.
  apply bind_ok_inv in H. destruct H as (B2 & E2 & H). rewrite E2. cbn [bind]. injection H as <-.
  eexists. split; [reflexivity|]. repeat split; cbn; eauto.
Qed.

(** The steps of the loop, counted. *)
Lemma api_steps m D O vs ps s0 : forall k s, ns_steps m D api_par O (convection m D) vs ps k s0 = Ok s -> forall a0, matches a0 s0 ->
  exists a, foldM (fun a _ => api_step m D O vs ps a) (zrange 0 (Z.of_nat k)) a0 = Ok a /\ matches a s.
Proof.
  induction k as [|k IH]; intros s H a0 M; cbn [ns_steps] in H; [injection H as <-; exists a0; split; [reflexivity|exact M]|].
  apply bind_ok_inv in H. destruct H as (s1 & H1 & H2). destruct (IH _ H1 _ M) as (a1 & E1 & M1). destruct (api_step_advance _ _ _ _ _ _ _ _ M1 H2) as (a2 & E2 & M2).
  exists a2. split; [|exact M2]. rewrite Nat2Z.inj_succ. unfold Z.succ. rewrite zrange_snoc by lia. replace (Z.of_nat k + 1 - 1)%Z with (Z.of_nat k) by lia.
  rewrite foldM_app, E1. cbn [bind foldM]. rewrite E2. reflexivity.
Qed.

From Verif Require Import ConvSpec ConvProof ConvValue ConvProps ApiSpec.
Local Open Scope string_scope.
Lemma conv_ok m D types values U0 : mesh_setup m D -> bc_fits m types ->
  forall hist B x, boundary_after m D types values ([OpICs U0] ++ hist) B -> is_ok (convection m D B x).
Proof.
  intros Hs Hb hist B x HB. destruct (conv_in_bounds m D types values (createConvection m D) _ B x Hs Hb (cs_new _ _ _ _) HB) as (y & C' & E).
  exists y. unfold convection. rewrite E. reflexivity.
Qed.
Lemma mapM_used rd m D y types values rs : (forall r, In r rs -> exists b, createBoundary_factory rd m D r (Some y) = Ok (Some b) /\ createBoundary m D r types values = Ok b) ->
  exists l, mapM (fun r => used (createBoundary_factory rd m D r (Some y))) rs = Ok l /\ mapM (fun r => createBoundary m D r types values) rs = Ok l.
Proof.
  induction rs as [|r rs IH]; intros H; [exists []; split; reflexivity|]. destruct (H r ltac:(now left)) as (b & E1 & E2). destruct (IH ltac:(intros; apply H; now right)) as (l & E3 & E4).
  exists (b :: l). cbn [mapM]. rewrite E1, E2. cbn [used bind]. rewrite E3, E4. split; reflexivity.
Qed.

Lemma api_lemma rd lambdify amgx load np y axs bcs nu vel pe out velocity poisson sr d :
  api_documented rd lambdify amgx load np y axs bcs nu vel pe out velocity poisson ->
  exists m D types values U0 p0 ops s0 s d2,
    (createMesh rd np (Some y) = Ok (Some (m, D)) /\ parseBCs rd (Some y) = Ok (types, values) /\ setInitialConditions rd lambdify (Some y) m D = Ok (mkSol U0 p0)) /\
    mesh_setup m D /\ bc_fits m types /\ m_dim m = lenZ axs /\ (forall d, ds_np D d = np d) /\
    (forall ax d, In ax axs -> In (ax_dir ax, d) doc_directions -> built_axis m ax d) /\
    (forall f loc ty v, In (f, loc, ty, v) bcs -> types f loc = ty /\ values f loc = v) /\
    (forall id f i j k, nthZ (packed_layout (m_dim m) D) id = Some (f, (i, j, k)) ->
       exists e, nthZ vel f = Some e /\ U0 id = e (xyz m f 0 i) (xyz m f 1 j) (xyz m f 2 k) 0 nu) /\
    (forall id i j k, nthZ (field_layout D 3) id = Some (i, j, k) -> p0 id = pe (xyz m 3 0 i) (xyz m 3 1 j) (xyz m 3 2 k) 0 nu) /\
    ns_init m D api_par types values 0 0 U0 p0 = Ok (ops, s0) /\
    ns_steps m D api_par ops (convection m D) (sr velocity) (sr poisson) 2001 s0 = Ok s /\
    (exists a, api_program rd lambdify amgx load np sr (Some y) d = Ok (m, D, a, d2) /\ a_U a = s_U s /\ a_p a = s_p s) /\
    (exists F, d2 (out ++ "/0002000.h5") = Some F /\ DriverSpec.holds_velocity m D (s_U s) F /\ holds_pressure m D (s_p s) F) /\
    (forall p, p <> grid_path out -> p <> out ++ "/0002000.h5" -> d2 p = d p).
Proof.
  intros [Hz Hd H1 H2 H3 H4 (H5 & H6 & H7) Hi Hv Hr].
  destruct (configuration_builds_simulation rd y axs bcs np Hd H1 H2 H3 H4 H5 H6 H7) as (m & D & types & values & Em & Eb & Hs & Hf & Md & Np & Tb & Ax & Bd).
  destruct (initial_conditions rd lambdify Hz m D Hs y nu vel pe Hi ltac:(lia)) as ([U0 p0] & Es & Us & Ps). cbn [UGlobal pGlobal] in Us, Ps.
  destruct Hr as (st & ps & dir & -> & Eps & Edir & Eout & Ev & Epo). pose proof (setup_facts _ _ Hs) as F.
  destruct (init_total m D api_par types values 0 0 U0 p0 F Hf ltac:(cbn; lia)) as (O & s0 & HI).
  assert (Hm : matches (mkApi U0 p0 (fun _ => 0) (s_bc s0)) s0 /\ exists l B, mapM (fun r => createBoundary m D r types values) (zrange 0 (nranks D)) = Ok l /\
     bc_call m D (OpICs U0) (fun r => match nthZ l r with Some b => b | None => [] end) = Ok B /\ createOperators m D B api_par = Ok O /\ s_bc s0 = B).
  { clear - HI. unfold ns_init in HI. apply bind_ok_inv in HI. destruct HI as (l & El & HI). apply bind_ok_inv in HI. destruct HI as (B & EB & HI). apply bind_ok_inv in HI. destruct HI as (ops & EO & HI).
    injection HI as <- <-. split; [repeat split; cbn; eauto|]. exists l, B. auto. }
  destruct Hm as (Hm & l & B & El & EB & EO & Ebc).
  destruct (steps_total m D api_par types values F Hf (convection m D) (sr velocity) (sr poisson) 0 0%Z U0 p0 O s0 2001 HI) as (s & Hk).
  { intros. eapply conv_ok; eauto. }
  destruct (api_steps _ _ _ _ _ _ _ _ Hk _ Hm) as (a & Ea & Ma).
  destruct (grid_file_written m D (grid_path out) d Hs) as (w & G & Ew & _ & Ho & _).
  destruct (solution_write_file m D (out ++ "/0002000.h5") (s_U s) (s_p s) (run_ops w d) F) as (Fl & EF & HF1 & HF2).
  destruct (mapM_used rd m D (YMap st) types values (zrange 0 (nranks D)) ltac:(intros r Hr; apply Bd; now apply zrange_In)) as (l' & El1 & El2).
  rewrite El in El2. injection El2 as <-. destruct Ma as (MU & Mp & _).
  exists m, D, types, values, U0, p0, O, s0, s, (run_ops (w ++ solution_write m D (out ++ "/0002000.h5") (s_U s) (s_p s))%list d).
  split; [auto|]. repeat (split; [assumption|]). split; [|split].
  - exists a. split; [|split; [now rewrite MU|now rewrite Mp]]. unfold api_program. rewrite Em. cbn [used bind]. cbn [yget_mut yget bind]. rewrite (word_read _ _ _ Eout). cbn [as_string bind].
    rewrite Ew. cbn [bind]. rewrite Es. cbn [bind UGlobal pGlobal]. rewrite El1. cbn [bind]. rewrite EB. cbn [bind]. rewrite api_operators_eq, EO. cbn [bind].
    rewrite (solver_read amgx load st ps dir "velocity" _ Eps Edir Ev). cbn [used bind]. rewrite (solver_read amgx load st ps dir "poisson" _ Eps Edir Epo). cbn [used bind].
    unfold api_loop. rewrite <- Ebc. change (zrange api_start (api_end + 1)) with (zrange 0 (Z.of_nat 2001)). rewrite Ea. cbn [bind]. rewrite MU, Mp. reflexivity.
  - exists Fl. rewrite run_app. auto.
  - intros p Hp1 Hp2. rewrite run_app, run_other; [now apply Ho|]. intros o Hi' E. apply Hp2. rewrite <- E. eapply solution_write_paths; eauto.
Qed.
