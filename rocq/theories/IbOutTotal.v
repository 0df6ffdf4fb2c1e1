From Coq Require Import ZifyBool String.
From Verif Require Import Prelude ZSum RSum TypesModel GridModel GridSpec GridProof MeshProof
  IndexModel IndexSpec IndexProof BoundaryModel BoundarySpec BoundaryProof OperatorModel OperatorSpec OperatorProof BStateProof LapProof AdjProof
  MatModel BnModel NSModel NSSpec NSProof NSTotal NameModel NameProof DriverModel DriverSpec DriverProof DriveProof RestartProof
  BodyModel BodySpec BodyProof BodyUse DeltaModel DeltaSpec IbpmModel IbpmSpec IbpmProof IbpmStep IbpmDec IbpmMove IbOutModel IbOutSpec IbOutDrive IbOutSim IbOutLines IbOutProof IbOutDec.
Local Open Scope R_scope.

Section Total.
Context {Ops St : Type}.
Variable (m : mesh).
Variables (ite : St -> Z) (init : Z -> res (Ops * St)) (wsol : Ops -> string -> St -> list fsop) (wres : Ops -> string -> St -> disk -> list fsop)
  (rres : Ops -> string -> disk -> St -> res St) (line : Ops -> St -> res (list R)) (step : Ops -> St -> res St).
Lemma g_total fuel conf mon d : (forall n ops s0, init n = Ok (ops, s0) -> ite s0 = n) -> (forall ops s s', step ops s = Ok s' -> ite s' = (ite s + 1)%Z) ->
  c_nstart conf = 0%Z -> c_nsave conf <> 0%Z -> c_nrestart conf <> 0%Z -> (Z.to_nat (c_nt conf) <= fuel)%nat ->
  (exists ops s0 s2, init 0%Z = Ok (ops, s0) /\ run_steps (step ops) (Z.to_nat (c_nt conf)) s0 = Ok s2) ->
  (forall ops s0 k sk, init 0%Z = Ok (ops, s0) -> run_steps (step ops) k s0 = Ok sk -> is_ok (line ops sk)) ->
  exists s2 d2 ls, g_main m ite init wsol wres rres line step fuel conf mon d = Ok (Some (s2, d2, ls)).
Proof.
  intros Hi Hite H0 N1 N2 Hf (ops & s0 & s2 & E0 & ER) Hl. pose proof (Hi _ _ _ E0) as I0.
  assert (L : nleft ite conf s0 = Z.to_nat (c_nt conf)) by (unfold nleft; f_equal; lia).
  unfold g_main. rewrite H0, E0. cbn [bind]. cbv zeta. unfold io_initial_with. rewrite I0. cbn [Z.eqb]. cbn [bind].
  apply (f_drive_total ite (wsol ops) (wres ops) (line ops) (step ops) (Hite ops) conf mon); rewrite ?L; eauto.
Qed.
End Total.

Section Main.
Variables (m : mesh) (D : dec) (P : nspar) (types : Z -> Z -> bctype) (values : Z -> Z -> R) (name : string) (bodies : list (body * list (list R))) (t0 : R) (U0 p0 : vec).
Variables (conv : boundary -> vec -> res vec) (vs ps : vec -> vec -> vec) (K : kernel) (w : Z).
Hypotheses (Hset : mesh_setup m D) (Hb : bc_fits m types) (Hbo : bodies_ok m D bodies).
Hypotheses (HK : getKernel name = Ok (K, w)) (Hn : (1 <= p_bn P)%Z).
Hypotheses (Hin : forall b i X, located bodies b i X -> inside_domain m X /\ in_reach m types w X)
  (Hrk : forall b bc r, nthZ bodies b = Some bc -> (0 <= r < nranks D)%Z -> (0 < b_l (fst bc) r)%Z)
  (Hc : forall hist B x, boundary_after m D types values ([OpICs U0] ++ hist) B -> is_ok (conv B x)).
Variables (conf : ioconf) (fuel : nat) (d : disk).
Hypotheses (H0 : c_nstart conf = 0%Z) (N1 : c_nsave conf <> 0%Z) (N2 : c_nrestart conf <> 0%Z) (Hf : (Z.to_nat (c_nt conf) <= fuel)%nat).

Lemma c_total mon : exists s2 d2 ls, ib_main fuel conf m D P types values name bodies t0 U0 p0 mon conv vs ps d = Ok (Some (s2, d2, ls)).
Proof.
  rewrite ib_main_is. apply g_total; auto.
  - intros n O s0 E. exact (proj1 (c_init_any _ _ _ _ _ _ _ _ _ _ _ _ _ E)).
  - intros O. apply c_ite.
  - exact (coupled_total m D P types values name bodies Hset Hb Hbo K w conv vs ps t0 0 U0 p0 _ HK Hn Hin Hrk Hc).
  - intros O s0 k sk _ _. apply forces_line_total. exact Hbo.
Qed.
Lemma e_total fs mon : exists s2 d2 ls, d_main fuel conf m D P types values name bodies t0 U0 p0 mon conv vs ps fs d = Ok (Some (s2, d2, ls)).
Proof.
  rewrite d_main_is. apply g_total; auto.
  - intros n O s0 E. exact (proj1 (e_init_any _ _ _ _ _ _ _ _ _ _ _ _ _ E)).
  - intros O. apply e_ite.
  - destruct (decoupled_total m D P types values Hset Hb K w name bodies conv (d_assembleRHSForces m) vs ps fs t0 0 U0 p0 (Z.to_nat (c_nt conf)) Hbo HK Hn Hin Hrk Hc) as (O & X & x0 & x & A & B).
    exists (O, X), x0, x. split; [exact A|exact B].
  - intros O s0 k sk _ _. apply forces_line_total. exact Hbo.
Qed.
Lemma v_total mo pos vel fs mon : prescribed m D bodies mo pos vel ->
  (forall j b i X, (1 <= j)%Z -> (j <= c_nt conf)%Z -> located (bodies_at bodies (pos (t0 + IZR j * p_dt P))) b i X -> inside_domain m X /\ in_reach m types w X) ->
  exists s2 d2 ls, r_main fuel conf m D P types values name bodies mo t0 U0 p0 mon conv vs ps fs d = Ok (Some (s2, d2, ls)).
Proof.
  intros Hmo Hin2. rewrite r_main_is. apply g_total; auto.
  - intros n O s0 E. exact (proj1 (proj2 (v_init_any _ _ _ _ _ _ _ _ _ _ _ _ _ E))).
  - intros O s s' E. exact (proj1 (v_ite _ _ _ _ _ _ _ _ _ _ _ _ E)).
  - apply (moving_total m D P types values Hset Hb name bodies mo pos vel Hbo Hmo conv vs ps fs K w t0 0 U0 p0 _ HK Hn Hin); auto.
    intros j b i X Hj. rewrite INR_IZR_INZ. apply Hin2; lia.
  - intros O s0 k sk E ER. pose proof (v_inv0 m D P types values name bodies t0 U0 p0 Hset Hb _ _ _ E) as I0.
    destruct (v_steps m D P types values name bodies conv vs ps Hset Hb mo pos vel fs Hmo O k s0 sk I0 ER) as ([_ Sk] & _). unfold v_line. rewrite (v_fst _ _ Sk). apply forces_line_total. exact Hbo.
Qed.
End Main.
